(** * Model of the methods of a generated message struct *)
From Verif Require Export Runtime.
From Verif Require Import Spec.

(** The part of a generated message type the methods depend on: the length of
    the offsets array (generate/generate.go:71, golden/testzeropb/test.zeropb.go:10)
    and the table of repeated fields (generate/generate.go:76-82,
    golden/testzeropb/test.zeropb.go:15-33). *)
Record mtype := mkMtype { alen : nat; reps : list Z }.

(** golden/testzeropb/test.zeropb.go:7-13: the struct. *)
Record msg := mkMsg { mbuf : list Z; moff : offsets }.

(** The zero value of the struct. *)
Definition msg_zero (mt : mtype) : msg := mkMsg [] (offsets_zero (alen mt)).

(** test.zeropb.go:35-37.  Simplification: the value layer identifies a nil
    buffer with an empty one (no code path distinguishes them: every nil test
    is applied to the result of GetBytes, GetRepeatedNonPacked or
    FindNextField, whose nil-ness is modelled). *)
Definition m_Encode (m : msg) : list Z := mbuf m.

(** Iterations that are enough for every loop over [buf] that terminates
    (proved in Fuel.v). *)
Definition fuel_of (buf : list Z) : nat := S (S (length buf)).

(** test.zeropb.go:39-42 *)
Definition m_Decode (mt : mtype) (m : msg) (buf : list Z) : res (option error * msg) :=
  let* (err, o) := Decode (fuel_of buf) buf (moff m) (reps mt) in
  Ok (err, mkMsg buf o).

(** test.zeropb.go:44-50 *)
Definition m_Reset (m : msg) (buf : list Z) : res msg :=
  if 0 <? zlen buf then Panic else Ok (mkMsg buf (offsets_clear (moff m))).

(** The scalar getters (test.zeropb.go:52-178): each passes its field id to the
    Get function of its codec. *)
Definition m_get (T : ptype) (m : msg) (f : Z) : res pval :=
  let buf := mbuf m in let o := moff m in
  match T with
  | PBool => let* b := GetBool buf o f in Ok (VBool b)
  | PInt32 => let* x := GetInt32 buf o f in Ok (VNum x)
  | PInt64 => let* x := GetInt64 buf o f in Ok (VNum x)
  | PUint32 => let* x := GetUint32 buf o f in Ok (VNum x)
  | PUint64 => let* x := GetUint64 buf o f in Ok (VNum x)
  | PSint32 => let* x := GetZigZagInt32 buf o f in Ok (VNum x)
  | PSint64 => let* x := GetZigZagInt64 buf o f in Ok (VNum x)
  | PFixed32 => let* x := GetFixedUint32 buf o f in Ok (VNum x)
  | PFixed64 => let* x := GetFixedUint64 buf o f in Ok (VNum x)
  | PSfixed32 => let* x := GetFixedInt32 buf o f in Ok (VNum x)
  | PSfixed64 => let* x := GetFixedInt64 buf o f in Ok (VNum x)
  | PFloat => let* x := GetFloat32 buf o f in Ok (VNum x)
  | PDouble => let* x := GetFloat64 buf o f in Ok (VNum x)
  | PString => let* x := GetString buf o f in Ok (VString x)
  | PBytes => let* x := GetBytes buf o f in Ok (VBytes x)
  end.

(** The scalar setters (test.zeropb.go:56-182).  A value of the wrong Go type
    cannot be passed; the model panics on it.  [order] is the order in which the
    run-time iterates the overflow map. *)
Definition m_set_ord (order : list Z -> list Z) (T : ptype) (m : msg) (f : Z) (v : pval) : res msg :=
  let buf := mbuf m in let o := moff m in
  let* (buf, o) :=
    match T, v with
    | PBool, VBool b => SetBool_ord order buf o f b
    | PInt32, VNum x => SetInt32_ord order buf o f x
    | PInt64, VNum x => SetInt64_ord order buf o f x
    | PUint32, VNum x => SetUint32_ord order buf o f x
    | PUint64, VNum x => SetUint64_ord order buf o f x
    | PSint32, VNum x => SetZigZagInt32_ord order buf o f x
    | PSint64, VNum x => SetZigZagInt64_ord order buf o f x
    | PFixed32, VNum x => SetFixedUint32_ord order buf o f x
    | PFixed64, VNum x => SetFixedUint64_ord order buf o f x
    | PSfixed32, VNum x => SetFixedInt32_ord order buf o f x
    | PSfixed64, VNum x => SetFixedInt64_ord order buf o f x
    | PFloat, VNum x => SetFloat32_ord order buf o f x
    | PDouble, VNum x => SetFloat64_ord order buf o f x
    | PString, VString x => SetString_ord order buf o f x
    | PBytes, VBytes x => SetBytes_ord order buf o f (default [] x)
    | _, _ => Panic
    end in
  Ok (mkMsg buf o).

(** The model of the code uses one particular order; every other order gives the
    same result (theorem C16). *)
Definition m_set := m_set_ord (fun ks => ks).

(** AppendBytes on the struct's own buffer and offsets. *)
Definition m_append (m : msg) (f : Z) (x : list Z) : res msg :=
  let* (buf, o) := AppendBytes (mbuf m) (moff m) f x in
  Ok (mkMsg buf o).

(** test.zeropb.go:184-190: the sub-message getter; [x] is the receiving
    struct, of message type [mt'].  Result: (present, error, new x). *)
Definition m_Message (mt' : mtype) (m : msg) (f : Z) (x : msg)
  : res (bool * option error * msg) :=
  let* buf := GetBytes (mbuf m) (moff m) f in
  match buf with
  | None => Ok (false, None, x)
  | Some buf => let* (err, x) := m_Decode mt' x buf in Ok (true, err, x)
  end.

(** test.zeropb.go:192-195: the sub-message setter. *)
Definition m_SetMessage (m : msg) (f : Z) (x : msg) : res msg :=
  m_set PBytes m f (VBytes (Some (m_Encode x))).

(** test.zeropb.go:209-211: the method returning an iterator. *)
Definition m_Iter (m : msg) (f : Z) : res (option (list Z)) :=
  GetRepeatedNonPacked (mbuf m) (moff m) f.

(** Iterations that are enough for the search loop of FindNextField. *)
Definition find_fuel (it : option (list Z)) : nat :=
  match it with None => 0%nat | Some b => fuel_of b end.

(** test.zeropb.go:200-207: Next of the iterator over field [f] with elements
    of type [mt'].  Result: (new iterator, ok, error, new m). *)
Definition it_Next (mt' : mtype) (it : option (list Z)) (f : Z) (m : msg)
  : res (option (list Z) * bool * option error * msg) :=
  let* (it, buf) := FindNextField (find_fuel it) it f in
  match buf with
  | None => Ok (it, false, None, m)
  | Some buf => let* (err, m) := m_Decode mt' m buf in Ok (it, true, err, m)
  end.

(** test.zeropb.go:213-216: AppendTo. *)
Definition m_AppendTo (m : msg) (f : Z) (x : msg) : res msg :=
  m_append m f (m_Encode x).

(** Decoding each of [xs] in turn into the same struct [m]: the outcomes. *)
Fixpoint decode_each (mt : mtype) (m : msg) (xs : list (list Z)) : res (list (option error * msg)) :=
  match xs with
  | [] => Ok []
  | x :: xs =>
    let* (err, m) := m_Decode mt m x in
    let* l := decode_each mt m xs in Ok ((err, m) :: l)
  end.

(** The client loop [for { ok, err := it.Next(&m); if !ok {break}; ... }] with at
    most [n] calls: what each successful call left in [err] and [m]. *)
Fixpoint iterate (n : nat) (mt' : mtype) (it : option (list Z)) (f : Z) (m : msg)
  : res (list (option error * msg)) :=
  match n with
  | O => OutOfFuel
  | S n =>
    let* (it, ok, err, m) := it_Next mt' it f m in
    if (ok : bool) then
      let* l := iterate n mt' it f m in Ok ((err, m) :: l)
    else Ok []
  end.

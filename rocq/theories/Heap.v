(** * Memory: model of the code over slices that share arrays

    The value layer (Runtime.v, GenApi.v) works on byte strings.  This file
    models the same functions over a memory of byte arrays and maps, with Go's
    slices (array, offset, length, capacity), so that aliasing, in-place writes,
    writes into spare capacity and reads beyond a slice's length can be stated. *)
From Verif Require Export Api.

(** The run-time's allocator: which new array (map) it hands out, given those that
    exist.  A choice that is already in use is replaced by one that is not. *)
Record allocator := mkAllocator { pick_array : gset nat -> nat; pick_map : gset nat -> nat }.
Definition pick (choose : gset nat -> nat) (d : gset nat) : nat :=
  let a := choose d in if decide (a ∈ d) then fresh d else a.
Lemma pick_fresh choose d : pick choose d ∉ d.
Proof. unfold pick. destruct (decide _); [apply is_fresh|done]. Qed.
Global Opaque pick.

(** The memory: backing arrays of slices, the maps, and the allocator, which no
    operation changes. *)
Record mem := mkMemory { arrs : gmap nat (list Z); maps : gmap nat (gmap Z Z); chooser : allocator }.
(** A memory with some allocator. *)
Definition mkMem (A : gmap nat (list Z)) (M : gmap nat (gmap Z Z)) : mem := mkMemory A M (mkAllocator fresh fresh).

(** A non-nil slice; [None : option slice] is the nil slice. *)
Record slice := mkSl { sarr : nat; soff : Z; slen : Z; scap : Z }.

Definition hlen (s : option slice) : Z := match s with None => 0 | Some s => slen s end.

(** The bytes of a slice. *)
Definition arr_of (σ : mem) (a : nat) : list Z := default [] (arrs σ !! a).
Definition sbytes (σ : mem) (s : option slice) : list Z :=
  match s with
  | None => []
  | Some s => take (Z.to_nat (slen s)) (drop (Z.to_nat (soff s)) (arr_of σ (sarr s)))
  end.

(** Go spec, "Slice expressions": [s[i:]] *)
Definition h_from (s : option slice) (i : Z) : res (option slice) :=
  match s with
  | None => if i =? 0 then Ok None else Panic
  | Some s =>
    if (0 <=? i) && (i <=? slen s)
    then Ok (Some (mkSl (sarr s) (soff s + i) (slen s - i) (scap s - i))) else Panic
  end.

(** [s[lo:hi]]: the upper bound is the capacity, not the length. *)
Definition h_range (s : option slice) (lo hi : Z) : res (option slice) :=
  match s with
  | None => if (lo =? 0) && (hi =? 0) then Ok None else Panic
  | Some s =>
    if (0 <=? lo) && (lo <=? hi) && (hi <=? scap s)
    then Ok (Some (mkSl (sarr s) (soff s + lo) (hi - lo) (scap s - lo))) else Panic
  end.

(** Overwrite part of an array. *)
Definition write (σ : mem) (a : nat) (pos : Z) (bs : list Z) : mem :=
  let l := arr_of σ a in
  mkMemory (<[a := take (Z.to_nat pos) l ++ bs ++ drop (Z.to_nat pos + length bs) l]> (arrs σ)) (maps σ) (chooser σ).

(** [copy(s[i:], src)], [src] being the bytes of the source at the time of the
    call (copy behaves like memmove): the number of bytes copied. *)
Definition h_copy (σ : mem) (s : option slice) (i : Z) (src : list Z) : res (mem * Z) :=
  let* d := h_from s i in
  match d with
  | None => Ok (σ, 0)
  | Some d =>
    let n := Z.min (slen d) (zlen src) in
    Ok (write σ (sarr d) (soff d) (take (Z.to_nat n) src), n)
  end.

(** A growth policy of [append]: the capacity of the new array as a function of
    the memory, the slice and the length needed (at least that length is
    allocated, whatever the policy says).  Where the new array is, is up to the
    allocator. *)
Definition policy := mem -> option slice -> Z -> Z.

(** Allocate an array holding [bs] with [extra] more cells. *)
Definition alloc (σ : mem) (bs : list Z) (extra : nat) : mem * slice :=
  let a := pick (pick_array (chooser σ)) (dom (arrs σ)) in
  (mkMemory (<[a := bs ++ replicate extra 0]> (arrs σ)) (maps σ) (chooser σ),
   mkSl a 0 (zlen bs) (zlen bs + Z.of_nat extra)).

(** [append(s, bs...)]: in place if the capacity allows it. *)
Definition h_append (grow : policy) (σ : mem) (s : option slice) (bs : list Z) : mem * option slice :=
  let need := hlen s + zlen bs in
  let cap := match s with None => 0 | Some s => scap s end in
  if need <=? cap then
    match s with
    | None => (σ, None)
    | Some s => (write σ (sarr s) (soff s + slen s) bs, Some (mkSl (sarr s) (soff s) need (scap s)))
    end
  else
    let '(σ', s') := alloc σ (sbytes σ s ++ bs) (Z.to_nat (grow σ s need - need)) in
    (σ', Some s').

(** ** Generated structs in memory (golden/testzeropb/test.zeropb.go:7-13): the
    array of offsets is part of the struct, the buffer and the map are
    references.  Copying a struct shares both. *)
Record hmsg := mkH { h_buf : option slice; h_a : list Z; h_m : option nat }.

(** The contents of the struct's offsets. *)
Definition hoffs (σ : mem) (h : hmsg) : offsets :=
  mkOffsets (h_a h) (match h_m h with Some l => maps σ !! l | None => None end).

(** The value-layer message a struct stands for. *)
Definition abs (σ : mem) (h : hmsg) : msg := mkMsg (sbytes σ (h_buf h)) (hoffs σ h).

(** Update the offsets to [o]: the array in the struct, the map through its
    reference, a nil map being allocated on first use (offsets.go:57-86).
    Simplification: the functions of Offsets.v compute the new contents, this
    function stores them; no code keeps a second reference to the map while
    updating it. *)
Definition put_offs (σ : mem) (h : hmsg) (o : offsets) : mem * hmsg :=
  match h_m h, om o with
  | Some l, Some m => (mkMemory (arrs σ) (<[l := m]> (maps σ)) (chooser σ), mkH (h_buf h) (oa o) (Some l))
  | None, Some m =>
    let l := pick (pick_map (chooser σ)) (dom (maps σ)) in
    (mkMemory (arrs σ) (<[l := m]> (maps σ)) (chooser σ), mkH (h_buf h) (oa o) (Some l))
  | _, None => (σ, mkH (h_buf h) (oa o) (h_m h))
  end.
Definition put_buf (h : hmsg) (b : option slice) : hmsg := mkH b (h_a h) (h_m h).

(** ** The runtime *)

(** The argument of a setter: a local scratch array (zeropb.go:174, 185, ...) or
    a slice (or string) of the caller. *)
Inductive src := Scratch (bs : list Z) | View (s : option slice).
Definition src_bytes (σ : mem) (v : src) : list Z :=
  match v with Scratch bs => bs | View s => sbytes σ s end.
Definition src_len (v : src) : Z :=
  match v with Scratch bs => zlen bs | View s => hlen s end.

(** zeropb.go:382-388, the end of setSingle. *)
Definition hset_new (grow : policy) (σ : mem) (h : hmsg) (fieldID : Z) (tagBytes valLen : list Z) (v : src)
  : res (mem * hmsg) :=
  let '(σ, b) := h_append grow σ (h_buf h) tagBytes in
  let* o := offsets_set (hoffs σ h) fieldID (u64 (hlen b)) in
  let '(σ, h) := put_offs σ (put_buf h b) o in
  let '(σ, b) := h_append grow σ b valLen in
  let '(σ, b) := h_append grow σ b (src_bytes σ v) in
  Ok (σ, put_buf h b).

(** zeropb.go:326-389, setSingle.  The order of the map iteration does not
    matter (theorem C16). *)
Definition hsetSingle (grow : policy) (σ : mem) (h : hmsg) (fieldID typ : Z) (valLen : list Z) (v : src)
  : res (mem * hmsg) :=
  let tag := make_tag fieldID typ in
  let* tagBytes := put_uvarint MaxVarintLen64 tag in
  let tagLen := zlen tagBytes in
  let buf := h_buf h in
  let* (offset, ok) := offsets_get (hoffs σ h) fieldID in
  if ok then
    let* oldLen := old_len (sbytes σ buf) offset typ in
    if oldLen =? zlen valLen + src_len v then
      let* (σ, n) := h_copy σ buf offset valLen in
      let offset := u64 (offset + u64 n) in
      let* (σ, n) := h_copy σ buf offset (src_bytes σ v) in
      Ok (σ, h)
    else
      let fieldBegin := u64 (offset - u64 tagLen) in
      let fieldEnd := u64 (offset + u64 oldLen) in
      let* s := h_from buf fieldEnd in
      let* (σ, _) := h_copy σ buf fieldBegin (sbytes σ s) in
      let removedBytes := u64 (fieldEnd - fieldBegin) in
      let* buf := h_range buf 0 (u64 (hlen buf - removedBytes)) in
      let o := hoffs σ h in
      let o := mkOffsets (adjust_array (oa o) fieldEnd removedBytes) (om o) in
      let* o := adjust_map_keys (map_keys o) fieldEnd removedBytes o in
      let '(σ, h) := put_offs σ (put_buf h buf) o in
      hset_new grow σ h fieldID tagBytes valLen v
  else hset_new grow σ h fieldID tagBytes valLen v.

(** zeropb.go:391-405, appendSingle *)
Definition happendSingle (grow : policy) (σ : mem) (h : hmsg) (fieldID typ : Z) (valLen : list Z) (v : src)
  : res (mem * hmsg) :=
  let tag := make_tag fieldID typ in
  let* tagBytes := put_uvarint MaxVarintLen64 tag in
  let '(σ, b) := h_append grow σ (h_buf h) tagBytes in
  let o := hoffs σ h in
  let* (_, ok) := offsets_get o fieldID in
  let* o := (if ok then Ok o else offsets_set o fieldID (u64 (hlen b))) in
  let '(σ, h) := put_offs σ (put_buf h b) o in
  let '(σ, b) := h_append grow σ b valLen in
  let '(σ, b) := h_append grow σ b (src_bytes σ v) in
  Ok (σ, put_buf h b).

(** zeropb.go:173-315: wire type, length prefix and value bytes each setter hands
    to setSingle. *)
Definition set_args (T : ptype) (v : pval) : res (Z * list Z * list Z) :=
  match T, v with
  | PBool, VBool b => Ok (WireVarint, [], [if b then 1 else 0])
  | (PInt32 | PInt64), VNum x =>
      let* val := put_uvarint MaxVarintLen64 (u64 x) in Ok (WireVarint, [], val)
  | PUint32, VNum x => let* val := put_uvarint MaxVarintLen32 (u64 x) in Ok (WireVarint, [], val)
  | PUint64, VNum x => let* val := put_uvarint MaxVarintLen64 x in Ok (WireVarint, [], val)
  | PSint32, VNum x => let* val := put_varint MaxVarintLen32 x in Ok (WireVarint, [], val)
  | PSint64, VNum x => let* val := put_varint MaxVarintLen64 x in Ok (WireVarint, [], val)
  | (PFixed32 | PFloat), VNum x => Ok (WireFixed32, [], put_le32 x)
  | PSfixed32, VNum x => Ok (WireFixed32, [], put_le32 (u32 x))
  | (PFixed64 | PDouble), VNum x => Ok (WireFixed64, [], put_le64 x)
  | PSfixed64, VNum x => Ok (WireFixed64, [], put_le64 (u64 x))
  | PString, VString x =>
      let* valLen := put_uvarint MaxVarintLen64 (u64 (zlen x)) in Ok (WireBytes, valLen, x)
  | PBytes, VBytes x =>
      let x := default [] x in
      let* valLen := put_uvarint MaxVarintLen64 (u64 (zlen x)) in Ok (WireBytes, valLen, x)
  | _, _ => Panic
  end.

(** The setters, with a scalar argument or bytes that live outside all message
    buffers. *)
Definition h_set (grow : policy) (T : ptype) (σ : mem) (h : hmsg) (f : Z) (v : pval) : res (mem * hmsg) :=
  let* (typ, valLen, val) := set_args T v in
  hsetSingle grow σ h f typ valLen (Scratch val).

(** SetString, SetBytes, SetMessage with an argument in memory
    (zeropb.go:295-315, test.zeropb.go:192-195). *)
Definition h_set_view (grow : policy) (σ : mem) (h : hmsg) (f : Z) (s : option slice) : res (mem * hmsg) :=
  let* valLen := put_uvarint MaxVarintLen64 (u64 (hlen s)) in
  hsetSingle grow σ h f WireBytes valLen (View s).

(** AppendBytes (zeropb.go:319-324) *)
Definition h_append_bytes (grow : policy) (σ : mem) (h : hmsg) (f : Z) (v : src) : res (mem * hmsg) :=
  let* valLen := put_uvarint MaxVarintLen64 (u64 (src_len v)) in
  happendSingle grow σ h f WireBytes valLen v.

(** What a getter returns: a scalar, or a slice (a string is a slice whose
    capacity is not used). *)
Inductive hval := HVal (v : pval) | HStr (s : option slice) | HBy (s : option slice).

(** zeropb.go:17-169: the getters.  [varint_at]: the varint at an offset. *)
Definition varint_at (σ : mem) (h : hmsg) (f : Z) (dflt : pval) (k : list Z -> pval) : res hval :=
  with_offset (hoffs σ h) f (HVal dflt) (fun offset =>
    let* b := h_from (h_buf h) offset in Ok (HVal (k (sbytes σ b)))).
Definition fixed_at (σ : mem) (h : hmsg) (f n : Z) (k : list Z -> res Z) : res hval :=
  with_offset (hoffs σ h) f (HVal (VNum 0)) (fun offset =>
    let* b := h_range (h_buf h) offset (u64 (offset + n)) in
    let* x := k (sbytes σ b) in Ok (HVal (VNum x))).
(** zeropb.go:149-169 *)
Definition slice_at (σ : mem) (h : hmsg) (f : Z) : res (option (option slice)) :=
  with_offset (hoffs σ h) f None (fun offset =>
    let* b := h_from (h_buf h) offset in
    let '(len, lenSize) := uvarint (sbytes σ b) in
    let offset := u64 (offset + u64 lenSize) in
    let* d := h_range (h_buf h) offset (u64 (offset + len)) in
    Ok (Some d)).

Definition h_get (T : ptype) (σ : mem) (h : hmsg) (f : Z) : res hval :=
  match T with
  | PBool => varint_at σ h f (VBool false) (fun b => VBool (0 <? (uvarint b).1))
  | PInt32 => varint_at σ h f (VNum 0) (fun b => VNum (i32 (uvarint b).1))
  | PInt64 => varint_at σ h f (VNum 0) (fun b => VNum (i64 (uvarint b).1))
  | PUint32 => varint_at σ h f (VNum 0) (fun b => VNum (u32 (uvarint b).1))
  | PUint64 => varint_at σ h f (VNum 0) (fun b => VNum (uvarint b).1)
  | PSint32 => varint_at σ h f (VNum 0) (fun b => VNum (i32 (varint b).1))
  | PSint64 => varint_at σ h f (VNum 0) (fun b => VNum (varint b).1)
  | PFixed32 | PFloat => fixed_at σ h f 4 le_uint32
  | PSfixed32 => fixed_at σ h f 4 (fun b => let* x := le_uint32 b in Ok (i32 x))
  | PFixed64 | PDouble => fixed_at σ h f 8 le_uint64
  | PSfixed64 => fixed_at σ h f 8 (fun b => let* x := le_uint64 b in Ok (i64 x))
  | PString => let* s := slice_at σ h f in Ok (HStr (default None s))
  | PBytes => let* s := slice_at σ h f in Ok (HBy (default None s))
  end.

(** The value a client sees in the result.  A nil slice is the only one the
    generated code tells from an empty one (test.zeropb.go:186). *)
Definition hval_of (σ : mem) (v : hval) : pval :=
  match v with
  | HVal v => v
  | HStr s => VString (sbytes σ s)
  | HBy None => VBytes None
  | HBy (Some s) => VBytes (Some (sbytes σ (Some s)))
  end.

(** zeropb.go:421-467 and test.zeropb.go:39-42: Decode only uses [buf[i:]] and
    [len(buf)], hence only the bytes of the slice. *)
Definition h_decode (mt : mtype) (σ : mem) (h : hmsg) (s : option slice) : res (option error * mem * hmsg) :=
  let buf := sbytes σ s in
  let* (err, o) := Decode (fuel_of buf) buf (hoffs σ h) (reps mt) in
  let '(σ, h) := put_offs σ (put_buf h s) o in
  Ok (err, σ, h).

(** test.zeropb.go:44-50 *)
Definition h_reset (σ : mem) (h : hmsg) (s : option slice) : res (mem * hmsg) :=
  if 0 <? hlen s then Panic
  else Ok (put_offs σ (put_buf h s) (offsets_clear (hoffs σ h))).

(** test.zeropb.go:184-190: the sub-message accessor, into the struct [x]. *)
Definition h_message (mt' : mtype) (σ : mem) (h : hmsg) (f : Z) (x : hmsg) : res (bool * option error * mem * hmsg) :=
  let* s := slice_at σ h f in
  match default None s with
  | None => Ok (false, None, σ, x)
  | Some s => let* (err, σ, x) := h_decode mt' σ x (Some s) in Ok (true, err, σ, x)
  end.

(** zeropb.go:411-417 *)
Definition h_iter (σ : mem) (h : hmsg) (f : Z) : res (option slice) :=
  with_offset (hoffs σ h) f None (fun offset => h_from (h_buf h) offset).

(** zeropb.go:480-489, returning the position instead of the slice. *)
Fixpoint find_pos (fuel : nat) (buf : list Z) (field idx : Z) : res (option Z) :=
  match fuel with
  | O => OutOfFuel
  | S fuel =>
    if idx <? zlen buf then
      let* b := slice_from buf idx in
      let '(tag, size) := uvarint b in
      let idx := i64 (idx + size) in
      let f := i64 (Z.shiftr tag 3) in
      let typ := Z.land tag 7 in
      if f =? field then
        let* rest := slice_from buf idx in Ok (Some idx)
      else
        let* b := slice_from buf idx in
        let* s := fieldDataSize typ b in
        find_pos fuel buf field (i64 (idx + s))
    else Ok None
  end.

(** zeropb.go:472-491, FindNextField: (rest, msg). *)
Definition h_find (σ : mem) (it : option slice) (field : Z) : res (option slice * option slice) :=
  match it with
  | None => Ok (None, None)
  | Some s =>
    let buf := sbytes σ it in
    let '(msgLen, lenSize) := uvarint buf in
    let idx := i64 (lenSize + i64 msgLen) in
    let* msg := h_range it lenSize idx in
    let* pos := find_pos (fuel_of buf) buf field idx in
    match pos with
    | None => Ok (None, msg)
    | Some i => let* rest := h_from it i in Ok (rest, msg)
    end
  end.

(** test.zeropb.go:200-207, Next into the struct [x]. *)
Definition h_next (mt' : mtype) (σ : mem) (it : option slice) (f : Z) (x : hmsg)
  : res (option slice * bool * option error * mem * hmsg) :=
  let* (it, buf) := h_find σ it f in
  match buf with
  | None => Ok (it, false, None, σ, x)
  | Some s => let* (err, σ, x) := h_decode mt' σ x (Some s) in Ok (it, true, err, σ, x)
  end.

(** ** Well-formed references *)
Definition swf (σ : mem) (s : option slice) : Prop :=
  match s with
  | None => True
  | Some s => exists l, arrs σ !! sarr s = Some l /\
      0 <= soff s /\ 0 <= slen s <= scap s /\ soff s + scap s <= zlen l
  end.
(** A struct in memory: its buffer and its map exist, and a struct without a
    buffer has no field set (a client cannot build another one: the fields of the
    struct are private, and Decode, Reset and the setters keep this). *)
Definition hwf (σ : mem) (h : hmsg) : Prop :=
  swf σ (h_buf h) /\
  match h_m h with None => True | Some l => is_Some (maps σ !! l) end /\
  (h_buf h = None -> Forall (fun x => x = 0) (h_a h)).

(** The cell [j] of array [a] belongs to the capacity window of the slice. *)
Definition in_window (s : option slice) (a : nat) (j : Z) : Prop :=
  match s with None => False | Some s => a = sarr s /\ soff s <= j < soff s + scap s end.
(** ... to the bytes of the slice. *)
Definition in_bytes (s : option slice) (a : nat) (j : Z) : Prop :=
  match s with None => False | Some s => a = sarr s /\ soff s <= j < soff s + slen s end.
(** ... to its spare capacity. *)
Definition in_spare (s : option slice) (a : nat) (j : Z) : Prop :=
  match s with None => False | Some s => a = sarr s /\ soff s + slen s <= j < soff s + scap s end.

(** Two slices share no cell, counting the capacity of both. *)
Definition apart (s t : option slice) : Prop := forall a j, in_window s a j -> in_window t a j -> False.
(** Two structs share neither buffer memory nor map. *)
Definition separate (h1 h2 : hmsg) : Prop :=
  apart (h_buf h1) (h_buf h2) /\ forall l, h_m h1 = Some l -> h_m h2 = Some l -> False.

(** The cell [j] of array [a]. *)
Definition cell (σ : mem) (a : nat) (j : Z) : option Z :=
  if 0 <=? j then arr_of σ a !! Z.to_nat j else None.

(** [σ'] is [σ] except inside [P] (cells) and [Q] (maps), apart from new arrays
    and maps. *)
Definition only_changes (σ σ' : mem) (P : nat -> Z -> Prop) (Q : nat -> Prop) : Prop :=
  (forall a l, arrs σ !! a = Some l -> exists l', arrs σ' !! a = Some l' /\ length l' = length l) /\
  (forall a j, is_Some (arrs σ !! a) -> ~ P a j -> cell σ' a j = cell σ a j) /\
  (forall k m, maps σ !! k = Some m -> ~ Q k -> maps σ' !! k = Some m) /\
  (forall k, is_Some (maps σ !! k) -> is_Some (maps σ' !! k)).

(** What a method of the struct may do to memory: from [σ], [h] to [σ'], [h'] only
    the capacity window of the buffer and the struct's own map change, and the
    new buffer and map are the old ones or new memory. *)
Definition own_frame (σ : mem) (h : hmsg) (σ' : mem) (h' : hmsg) : Prop :=
  only_changes σ σ' (in_window (h_buf h)) (fun k => h_m h = Some k) /\
  (forall a j, in_window (h_buf h') a j -> in_window (h_buf h) a j \/ arrs σ !! a = None) /\
  (forall k, h_m h' = Some k -> h_m h = Some k \/ maps σ !! k = None).

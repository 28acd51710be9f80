(** * What a panic leaves behind

    The functions of Runtime.v return nothing but the outcome when they panic.
    A client may recover from a panic (net/http does for every handler) and keep
    using the struct, so what the struct then holds matters.  This file models
    the functions that write to the struct once more, statement by statement,
    over an explicit state that survives a panic.  That they agree with
    Runtime.v and GenApi.v is proved in PanicFacts.v.

    The outcome [PastLen] of a slice expression is a panic if the buffer has no
    spare capacity; the state given for it here is the state in that case. *)
From Verif Require Export Api.

(** A computation over the buffer and the offsets of one struct. *)
Definition pst := (list Z * offsets)%type.
Definition M (A : Type) := pst -> res A * pst.

Definition pret {A} (a : A) : M A := fun s => (Ok a, s).
(** An expression that does not write. *)
Definition pread {A} (r : pst -> res A) : M A := fun s => (r s, s).
Definition pbind {A B} (x : M A) (k : A -> M B) : M B := fun s =>
  match x s with
  | (Ok a, s') => k a s'
  | (Panic, s') => (Panic, s')
  | (PastLen, s') => (PastLen, s')
  | (OutOfFuel, s') => (OutOfFuel, s')
  end.
(** [*buf = b] and the effect of [copy(( *buf)[i:], ...)]. *)
Definition wbuf (b : list Z) : M unit := fun s => (Ok tt, (b, s.2)).
(** Writes to the array or map of the offsets. *)
Definition woff (o : offsets) : M unit := fun s => (Ok tt, (s.1, o)).

(** offsets.go:57-74, Offsets.Set: both ways through it index the array before
    they write, so a panic writes nothing. *)
Definition p_offsets_set (f x : Z) : M unit :=
  pbind (pread (fun s => offsets_set s.2 f x)) woff.

(** zeropb.go:375-381 *)
Fixpoint p_adjust_map_keys (ks : list Z) (fieldEnd removedBytes : Z) : M unit :=
  match ks with
  | [] => pret tt
  | k :: ks =>
    pbind (pbind (pread (fun s => adjust_map_key fieldEnd removedBytes k s.2)) woff) (fun _ =>
    p_adjust_map_keys ks fieldEnd removedBytes)
  end.

(** zeropb.go:382-388, the end of setSingle. *)
Definition p_append_new (f : Z) (tagBytes valLen val : list Z) : M unit :=
  pbind (fun s => (Ok tt, (s.1 ++ tagBytes, s.2))) (fun _ =>
  pbind (fun s => p_offsets_set f (u64 (zlen s.1)) s) (fun _ =>
  pbind (fun s => (Ok tt, (s.1 ++ valLen, s.2))) (fun _ =>
  (fun s => (Ok tt, (s.1 ++ val, s.2)))))).

(** [copy(( *buf)[i:], src)] *)
Definition p_copy (i : Z) (src : list Z) : M Z :=
  pbind (pread (fun s => copy_at s.1 i src)) (fun r =>
  pbind (wbuf r.1) (fun _ => pret r.2)).

(** zeropb.go:326-389, setSingle.  The order of the map iteration does not
    matter (C16). *)
Definition p_setSingle (f typ : Z) (valLen val : list Z) : M unit :=
  let tag := make_tag f typ in
  pbind (pread (fun _ => put_uvarint MaxVarintLen64 tag)) (fun tagBytes =>
  let tagLen := zlen tagBytes in
  pbind (pread (fun s => offsets_get s.2 f)) (fun g =>
  let offset := g.1 in
  if g.2 then
    pbind (pread (fun s => old_len s.1 offset typ)) (fun oldLen =>
    if oldLen =? zlen valLen + zlen val then
      pbind (p_copy offset valLen) (fun n =>
      let offset := u64 (offset + u64 n) in
      pbind (p_copy offset val) (fun _ => pret tt))
    else
      let fieldBegin := u64 (offset - u64 tagLen) in
      let fieldEnd := u64 (offset + u64 oldLen) in
      pbind (pread (fun s => slice_from s.1 fieldEnd)) (fun src =>
      pbind (p_copy fieldBegin src) (fun _ =>
      let removedBytes := u64 (fieldEnd - fieldBegin) in
      pbind (pread (fun s => slice_to s.1 (u64 (zlen s.1 - removedBytes)))) (fun b =>
      pbind (wbuf b) (fun _ =>
      pbind (fun s => (Ok tt, (s.1, mkOffsets (adjust_array (oa s.2) fieldEnd removedBytes) (om s.2)))) (fun _ =>
      pbind (fun s => p_adjust_map_keys (map_keys s.2) fieldEnd removedBytes s) (fun _ =>
      p_append_new f tagBytes valLen val)))))))
  else p_append_new f tagBytes valLen val)).

(** zeropb.go:391-405, appendSingle *)
Definition p_appendSingle (f typ : Z) (valLen val : list Z) : M unit :=
  let tag := make_tag f typ in
  pbind (pread (fun _ => put_uvarint MaxVarintLen64 tag)) (fun tagBytes =>
  pbind (fun s => (Ok tt, (s.1 ++ tagBytes, s.2))) (fun _ =>
  pbind (pread (fun s => offsets_get s.2 f)) (fun g =>
  pbind (if g.2 then pret tt else fun s => p_offsets_set f (u64 (zlen s.1)) s) (fun _ =>
  pbind (fun s => (Ok tt, (s.1 ++ valLen, s.2))) (fun _ =>
  (fun s => (Ok tt, (s.1 ++ val, s.2)))))))).

(** zeropb.go:423-466, the loop of Decode over [buf]. *)
Fixpoint p_decode_loop (fuel : nat) (buf : list Z) (reps : list Z) (idx : Z) : M (option error) :=
  match fuel with
  | O => fun s => (OutOfFuel, s)
  | S fuel =>
    if idx =? zlen buf then pret None
    else if zlen buf <? idx then pret (Some ErrUnexpectedEOF)
    else
      pbind (pread (fun _ => slice_from buf idx)) (fun b =>
      let '(tag, size) := uvarint b in
      if size =? 0 then pret (Some ErrUnexpectedEOF)
      else
        let idx := i64 (idx + size) in
        if zlen buf <=? idx then pret (Some ErrUnexpectedEOF)
        else
          let fieldID := i64 (Z.shiftr tag 3) in
          let typ := Z.land tag 7 in
          pbind
            (if is_repeated reps fieldID then
               pbind (pread (fun s => offsets_get s.2 fieldID)) (fun g =>
               if g.2 then pret tt else p_offsets_set fieldID (u64 idx))
             else p_offsets_set fieldID (u64 idx)) (fun _ =>
          pbind (pread (fun _ => slice_from buf idx)) (fun b =>
          pbind (pread (fun _ => fieldDataSize typ b)) (fun n =>
          if n =? 0 then pret (Some ErrUnexpectedEOF)
          else p_decode_loop fuel buf reps (i64 (idx + n))))))
  end.

(** test.zeropb.go:39-42 and zeropb.go:421-422: the buffer is stored and the
    offsets are cleared before the loop. *)
Definition p_Decode (mt : mtype) (buf : list Z) : M (option error) :=
  pbind (wbuf buf) (fun _ =>
  pbind (fun s => (Ok tt, (s.1, offsets_clear s.2))) (fun _ =>
  p_decode_loop (fuel_of buf) buf (reps mt) 0)).

(** test.zeropb.go:44-50: the check comes first. *)
Definition p_Reset (buf : list Z) : M unit :=
  if 0 <? zlen buf then pread (fun _ => Panic)
  else pbind (wbuf buf) (fun _ s => (Ok tt, (s.1, offsets_clear s.2))).

(** The argument of setSingle in each setter (zeropb.go:173-315): wire type,
    length prefix, value. *)
Definition p_set (T : ptype) (f : Z) (v : pval) : M unit :=
  let varint cap x := pbind (pread (fun _ => put_uvarint cap x)) (fun val => p_setSingle f WireVarint [] val) in
  let zigzag cap x := pbind (pread (fun _ => put_varint cap x)) (fun val => p_setSingle f WireVarint [] val) in
  let bytes x := pbind (pread (fun _ => put_uvarint MaxVarintLen64 (u64 (zlen x)))) (fun valLen =>
                 p_setSingle f WireBytes valLen x) in
  match T, v with
  | PBool, VBool b => p_setSingle f WireVarint [] [if b then 1 else 0]
  | PInt32, VNum x => varint MaxVarintLen64 (u64 x)
  | PInt64, VNum x => varint MaxVarintLen64 (u64 x)
  | PUint32, VNum x => varint MaxVarintLen32 (u64 x)
  | PUint64, VNum x => varint MaxVarintLen64 x
  | PSint32, VNum x => zigzag MaxVarintLen32 x
  | PSint64, VNum x => zigzag MaxVarintLen64 x
  | PFixed32, VNum x => p_setSingle f WireFixed32 [] (put_le32 x)
  | PFixed64, VNum x => p_setSingle f WireFixed64 [] (put_le64 x)
  | PSfixed32, VNum x => p_setSingle f WireFixed32 [] (put_le32 (u32 x))
  | PSfixed64, VNum x => p_setSingle f WireFixed64 [] (put_le64 (u64 x))
  | PFloat, VNum x => p_setSingle f WireFixed32 [] (put_le32 x)
  | PDouble, VNum x => p_setSingle f WireFixed64 [] (put_le64 x)
  | PString, VString x => bytes x
  | PBytes, VBytes x => bytes (default [] x)
  | _, _ => pread (fun _ => Panic)
  end.

(** zeropb.go:319-324 *)
Definition p_append (f : Z) (x : list Z) : M unit :=
  pbind (pread (fun _ => put_uvarint MaxVarintLen64 (u64 (zlen x)))) (fun valLen =>
  p_appendSingle f WireBytes valLen x).

(** One method call: what the client sees of it, and the struct afterwards,
    whether the call returned or panicked. *)
Definition call_st (mt : mtype) (m : msg) (c : call) : res answer * msg :=
  let '(r, s) :=
    (match c with
     | CSet T f v => pbind (p_set T f v) (fun _ => pret AUnit)
     | CAppend f x => pbind (p_append f x) (fun _ => pret AUnit)
     | CDecode buf => pbind (p_Decode mt buf) (fun err => pret (AError err))
     | CReset buf => pbind (p_Reset buf) (fun _ => pret AUnit)
     | _ => pread (fun _ => let* (a, _) := exec mt m c in Ok a)
     end) (mbuf m, moff m) in
  (r, mkMsg s.1 s.2).

(** The states of a struct of type [mt] that a client can reach by any sequence
    of method calls with any arguments, recovering from every panic.  No slice is
    longer than the largest int. *)
Inductive reachable (mt : mtype) : msg -> Prop :=
| reachable_new : reachable mt (msg_zero mt)
| reachable_call m c : reachable mt m -> zlen (mbuf m) < 2 ^ 63 -> reachable mt (call_st mt m c).2.

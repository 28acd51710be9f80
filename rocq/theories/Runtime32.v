(** * The functions of zeropb.go that compute with Go's [int], for any width of [int]

    GoBase.v and Runtime.v fix [int] to 64 bits.  Here the conversion to [int] is
    the parameter [w]: [i64] gives back Runtime.v (theorems at the end), [i32] is
    the program on a 32-bit platform (386, arm).  Everything else (uint64 offsets,
    slices, varints, the offset table) does not depend on the width; slice lengths
    are below 2^31 there, which the theorems state.

    Only functions with [int] arithmetic or conversions to [int] are repeated. *)
From Verif Require Export GenApi Api.
From Verif Require Import Spec VarintFacts RecFacts.

(** zeropb.go:331, 394: [uint64(fieldID<<3 | typ)]; [fieldID], [typ] are ints. *)
Definition make_tag_w (w : Z -> Z) (fieldID typ : Z) : Z :=
  u64 (Z.lor (w (Z.shiftl fieldID 3)) typ).

(** zeropb.go:335-348 *)
Definition old_len_w (w : Z -> Z) (buf : list Z) (offset typ : Z) : res Z :=
  if typ =? WireVarint then
    let* b := slice_from buf offset in
    let '(_, n) := uvarint b in Ok n
  else if typ =? WireFixed32 then Ok 4
  else if typ =? WireFixed64 then Ok 8
  else if typ =? WireBytes then
    let* b := slice_from buf offset in
    let '(oldValLen, oldValLenLen) := uvarint b in
    Ok (w (w oldValLen + oldValLenLen))
  else Panic.

(** zeropb.go:326-389.  The order in which the overflow map is iterated is the
    one of [setSingle] (it does not matter, C16). *)
Definition setSingle_w (w : Z -> Z) (buf : list Z) (o : offsets)
    (fieldID typ : Z) (valLen val : list Z) : res (list Z * offsets) :=
  let tag := make_tag_w w fieldID typ in
  let* tagBytes := put_uvarint MaxVarintLen64 tag in
  let tagLen := zlen tagBytes in
  let append_new (buf : list Z) (o : offsets) :=
    let buf := buf ++ tagBytes in
    let offset := zlen buf in
    let* o := offsets_set o fieldID (u64 offset) in
    Ok (buf ++ valLen ++ val, o) in
  let* (offset, ok) := offsets_get o fieldID in
  if ok then
    let* oldLen := old_len_w w buf offset typ in
    if oldLen =? w (zlen valLen + zlen val) then
      let* (buf, n) := copy_at buf offset valLen in
      let offset := u64 (offset + u64 n) in
      let* (buf, n) := copy_at buf offset val in
      Ok (buf, o)
    else
      let fieldBegin := u64 (offset - u64 tagLen) in
      let fieldEnd := u64 (offset + u64 oldLen) in
      let* src := slice_from buf fieldEnd in
      let* (buf, _) := copy_at buf fieldBegin src in
      let removedBytes := u64 (fieldEnd - fieldBegin) in
      let* buf := slice_to buf (u64 (zlen buf - removedBytes)) in
      let o := mkOffsets (adjust_array (oa o) fieldEnd removedBytes) (om o) in
      let* o := adjust_map_keys (map_keys o) fieldEnd removedBytes o in
      append_new buf o
  else append_new buf o.

(** zeropb.go:391-405 *)
Definition appendSingle_w (w : Z -> Z) (buf : list Z) (o : offsets) (fieldID typ : Z)
    (valLen val : list Z) : res (list Z * offsets) :=
  let tag := make_tag_w w fieldID typ in
  let* tagBytes := put_uvarint MaxVarintLen64 tag in
  let buf := buf ++ tagBytes in
  let offset := zlen buf in
  let* (_, ok) := offsets_get o fieldID in
  let* o := (if ok then Ok o else offsets_set o fieldID (u64 offset)) in
  Ok (buf ++ valLen ++ val, o).

(** zeropb.go:493-511 *)
Definition fieldDataSize_w (w : Z -> Z) (typ : Z) (buf : list Z) : res Z :=
  if typ =? WireVarint then Ok (uvarint buf).2
  else if typ =? WireFixed32 then Ok 4
  else if typ =? WireFixed64 then Ok 8
  else if typ =? WireBytes then
    let '(len, lenSize) := uvarint buf in
    if lenSize =? 0 then Ok 0 else Ok (w (lenSize + w len))
  else Panic.

(** zeropb.go:423-466 *)
Definition decode_loop_w (w : Z -> Z) := fix decode_loop_w (fuel : nat) (buf : list Z) (reps : list Z) (idx : Z)
    (o : offsets) {struct fuel} : res (option error * offsets) :=
  match fuel with
  | O => OutOfFuel
  | S fuel =>
    if idx =? zlen buf then Ok (None, o)
    else if zlen buf <? idx then Ok (Some ErrUnexpectedEOF, o)
    else
      let* b := slice_from buf idx in
      let '(tag, size) := uvarint b in
      if size =? 0 then Ok (Some ErrUnexpectedEOF, o)
      else
        let idx := w (idx + size) in
        if zlen buf <=? idx then Ok (Some ErrUnexpectedEOF, o)
        else
          let fieldID := w (Z.shiftr tag 3) in
          let typ := Z.land tag 7 in
          let* o :=
            (if is_repeated reps fieldID then
               let* (_, ok) := offsets_get o fieldID in
               if ok then Ok o else offsets_set o fieldID (u64 idx)
             else offsets_set o fieldID (u64 idx)) in
          let* b := slice_from buf idx in
          let* s := fieldDataSize_w w typ b in
          if s =? 0 then Ok (Some ErrUnexpectedEOF, o)
          else decode_loop_w fuel buf reps (w (idx + s)) o
  end.

(** zeropb.go:421-467 *)
Definition Decode_w (w : Z -> Z) (fuel : nat) (buf : list Z) (o : offsets) (reps : list Z)
  : res (option error * offsets) :=
  decode_loop_w w fuel buf reps 0 (offsets_clear o).

(** zeropb.go:480-489 *)
Definition find_loop_w (w : Z -> Z) := fix find_loop_w (fuel : nat) (buf : list Z) (field idx : Z) {struct fuel}
  : res (option (list Z)) :=
  match fuel with
  | O => OutOfFuel
  | S fuel =>
    if idx <? zlen buf then
      let* b := slice_from buf idx in
      let '(tag, size) := uvarint b in
      let idx := w (idx + size) in
      let f := w (Z.shiftr tag 3) in
      let typ := Z.land tag 7 in
      if f =? field then
        let* rest := slice_from buf idx in Ok (Some rest)
      else
        let* b := slice_from buf idx in
        let* s := fieldDataSize_w w typ b in
        find_loop_w fuel buf field (w (idx + s))
    else Ok None
  end.

(** zeropb.go:472-491 *)
Definition FindNextField_w (w : Z -> Z) (fuel : nat) (buf : option (list Z)) (field : Z)
  : res (option (list Z) * option (list Z)) :=
  match buf with
  | None => Ok (None, None)
  | Some buf =>
    let '(msgLen, lenSize) := uvarint buf in
    let idx := w (lenSize + w msgLen) in
    let* msg := slice_range buf lenSize idx in
    let* rest := find_loop_w w fuel buf field idx in
    Ok (rest, Some msg)
  end.

(** ** The methods of a generated struct (test.zeropb.go:39-216) *)

(** test.zeropb.go:39-42 *)
Definition m_Decode_w (w : Z -> Z) (mt : mtype) (m : msg) (buf : list Z) : res (option error * msg) :=
  let* (err, o) := Decode_w w (fuel_of buf) buf (moff m) (reps mt) in
  Ok (err, mkMsg buf o).

(** The setters: zeropb.go:173-315 called from test.zeropb.go:56-182. *)
Definition m_set_w (w : Z -> Z) (T : ptype) (m : msg) (f : Z) (v : pval) : res msg :=
  let set := setSingle_w w (mbuf m) (moff m) f in
  let* (buf, o) :=
    match T, v with
    | PBool, VBool b => set WireVarint [] [if b then 1 else 0]
    | (PInt32 | PInt64), VNum x => let* val := put_uvarint MaxVarintLen64 (u64 x) in set WireVarint [] val
    | PUint32, VNum x => let* val := put_uvarint MaxVarintLen32 (u64 x) in set WireVarint [] val
    | PUint64, VNum x => let* val := put_uvarint MaxVarintLen64 x in set WireVarint [] val
    | PSint32, VNum x => let* val := put_varint MaxVarintLen32 x in set WireVarint [] val
    | PSint64, VNum x => let* val := put_varint MaxVarintLen64 x in set WireVarint [] val
    | (PFixed32 | PFloat), VNum x => set WireFixed32 [] (put_le32 x)
    | PSfixed32, VNum x => set WireFixed32 [] (put_le32 (u32 x))
    | (PFixed64 | PDouble), VNum x => set WireFixed64 [] (put_le64 x)
    | PSfixed64, VNum x => set WireFixed64 [] (put_le64 (u64 x))
    | PString, VString x => let* valLen := put_uvarint MaxVarintLen64 (u64 (zlen x)) in set WireBytes valLen x
    | PBytes, VBytes x =>
        let* valLen := put_uvarint MaxVarintLen64 (u64 (zlen (default [] x))) in set WireBytes valLen (default [] x)
    | _, _ => Panic
    end in
  Ok (mkMsg buf o).

(** zeropb.go:319-324 on the struct's buffer and offsets. *)
Definition m_append_w (w : Z -> Z) (m : msg) (f : Z) (x : list Z) : res msg :=
  let* valLen := put_uvarint MaxVarintLen64 (u64 (zlen x)) in
  let* (buf, o) := appendSingle_w w (mbuf m) (moff m) f WireBytes valLen x in
  Ok (mkMsg buf o).

(** test.zeropb.go:184-190 *)
Definition m_Message_w (w : Z -> Z) (mt' : mtype) (m : msg) (f : Z) (x : msg) : res (bool * option error * msg) :=
  let* buf := GetBytes (mbuf m) (moff m) f in
  match buf with
  | None => Ok (false, None, x)
  | Some buf => let* (err, x) := m_Decode_w w mt' x buf in Ok (true, err, x)
  end.

(** test.zeropb.go:200-207 *)
Definition it_Next_w (w : Z -> Z) (mt' : mtype) (it : option (list Z)) (f : Z) (m : msg)
  : res (option (list Z) * bool * option error * msg) :=
  let* (it, buf) := FindNextField_w w (find_fuel it) it f in
  match buf with
  | None => Ok (it, false, None, m)
  | Some buf => let* (err, m) := m_Decode_w w mt' m buf in Ok (it, true, err, m)
  end.

(** The client loop over an iterator. *)
Definition iterate_w (w : Z -> Z) := fix iterate_w (n : nat) (mt' : mtype) (it : option (list Z)) (f : Z) (m : msg) {struct n}
  : res (list (option error * msg)) :=
  match n with
  | O => OutOfFuel
  | S n =>
    let* (it, ok, err, m) := it_Next_w w mt' it f m in
    if (ok : bool) then
      let* l := iterate_w n mt' it f m in Ok ((err, m) :: l)
    else Ok []
  end.
Definition m_iterate_w (w : Z -> Z) (n : nat) (mt' : mtype) (m : msg) (f : Z) (x : msg)
  : res (list (option error * msg)) :=
  let* it := m_Iter m f in iterate_w w n mt' it f x.

(** One operation; as [step] of Api.v. *)
Definition step_w (w : Z -> Z) (mt : mtype) (sc : schema) (m : msg) (o : op) : res msg :=
  match o with
  | OSet f v => match sc f with Some (KSingle T) => m_set_w w T m f v | _ => Panic end
  | OAppend f x => m_append_w w m f x
  | OReset => m_Reset m []
  | ODecode _ bs =>
    let* (err, m) := m_Decode_w w mt m bs in
    match err with None => Ok m | Some _ => Panic end
  end.
Fixpoint run_w (w : Z -> Z) (mt : mtype) (sc : schema) (m : msg) (os : list op) : res msg :=
  match os with
  | [] => Ok m
  | o :: os => let* m := step_w w mt sc m o in run_w w mt sc m os
  end.

(** ** With 64-bit ints this is Runtime.v *)
Lemma decode_w_64 : m_Decode_w i64 = m_Decode.
Proof. reflexivity. Qed.
Lemma append_w_64 m f x : m_append_w i64 m f x = m_append m f x.
Proof. unfold m_append_w, m_append, AppendBytes. destruct (put_uvarint _ _); reflexivity. Qed.
Lemma iterate_w_64 : m_iterate_w i64 = m_iterate.
Proof. reflexivity. Qed.
Lemma message_w_64 : m_Message_w i64 = m_Message.
Proof. reflexivity. Qed.
Lemma setSingle_w_64 buf o f typ valLen val :
  zlen valLen + zlen val < 2 ^ 63 -> setSingle_w i64 buf o f typ valLen val = setSingle buf o f typ valLen val.
Proof.
  intros H. unfold setSingle_w, setSingle, setSingle_ord. rewrite i64_small; [reflexivity|].
  pose proof (zlen_nonneg valLen). pose proof (zlen_nonneg val). lia.
Qed.

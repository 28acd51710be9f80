(** * The functions of zeropb.go, for any version of Go's [binary.Uvarint]

    Runtime.v fixes [binary.Uvarint] to the one of Go 1.12 (the release of
    /repo/.circleci/config.yml:5).  Here it is the parameter [uv]: [uvarint] gives
    back Runtime.v (theorems at the end), [uvarint_117] (Varint.v) is the program
    compiled with Go 1.17 or later, where Uvarint gives up at the eleventh byte.
    [binary.Varint] calls Uvarint in both.

    Only functions that call Uvarint, directly or indirectly, are repeated. *)
From Verif Require Export GenApi Api.
From Verif Require Import Spec.

(** binary.Varint (varint.go, as in Varint.v). *)
Definition varint_u (uv : list Z -> Z * Z) (buf : list Z) : Z * Z :=
  let '(ux, n) := uv buf in
  let x := i64 (Z.shiftr ux 1) in
  (if negb (Z.land ux 1 =? 0) then Z.lnot x else x, n).

(** zeropb.go:17-84: the varint getters; [k] is the conversion at the end. *)
Definition get_varint_u (uv : list Z -> Z * Z) {A} (dflt : A) (k : Z -> A) (buf : list Z) (o : offsets) (fieldID : Z) : res A :=
  with_offset o fieldID dflt (fun offset =>
    let* b := slice_from buf offset in
    let '(x, _) := uv b in Ok (k x)).

(** zeropb.go:67-84: the zigzag getters. *)
Definition get_zigzag_u (uv : list Z -> Z * Z) (k : Z -> Z) (buf : list Z) (o : offsets) (fieldID : Z) : res Z :=
  with_offset o fieldID 0 (fun offset =>
    let* b := slice_from buf offset in
    let '(x, _) := varint_u uv b in Ok (k x)).

(** zeropb.go:149-158 *)
Definition GetString_u (uv : list Z -> Z * Z) (buf : list Z) (o : offsets) (fieldID : Z) : res (list Z) :=
  with_offset o fieldID [] (fun offset =>
    let* b := slice_from buf offset in
    let '(len, lenSize) := uv b in
    let offset := u64 (offset + u64 lenSize) in
    slice_range buf offset (u64 (offset + len))).

(** zeropb.go:161-169 *)
Definition GetBytes_u (uv : list Z -> Z * Z) (buf : list Z) (o : offsets) (fieldID : Z) : res (option (list Z)) :=
  with_offset o fieldID None (fun offset =>
    let* b := slice_from buf offset in
    let '(len, lenSize) := uv b in
    let offset := u64 (offset + u64 lenSize) in
    let* d := slice_range buf offset (u64 (offset + len)) in
    Ok (Some d)).

(** zeropb.go:335-348 *)
Definition old_len_u (uv : list Z -> Z * Z) (buf : list Z) (offset typ : Z) : res Z :=
  if typ =? WireVarint then
    let* b := slice_from buf offset in
    let '(_, n) := uv b in Ok n
  else if typ =? WireFixed32 then Ok 4
  else if typ =? WireFixed64 then Ok 8
  else if typ =? WireBytes then
    let* b := slice_from buf offset in
    let '(oldValLen, oldValLenLen) := uv b in
    Ok (i64 (i64 oldValLen + oldValLenLen))
  else Panic.

(** zeropb.go:326-389.  The order in which the overflow map is iterated is the
    one of [setSingle] (it does not matter, C16). *)
Definition setSingle_u (uv : list Z -> Z * Z) (buf : list Z) (o : offsets)
    (fieldID typ : Z) (valLen val : list Z) : res (list Z * offsets) :=
  let tag := make_tag fieldID typ in
  let* tagBytes := put_uvarint MaxVarintLen64 tag in
  let tagLen := zlen tagBytes in
  let append_new (buf : list Z) (o : offsets) :=
    let buf := buf ++ tagBytes in
    let offset := zlen buf in
    let* o := offsets_set o fieldID (u64 offset) in
    Ok (buf ++ valLen ++ val, o) in
  let* (offset, ok) := offsets_get o fieldID in
  if ok then
    let* oldLen := old_len_u uv buf offset typ in
    if oldLen =? zlen valLen + zlen val then
      let* (buf, n) := copy_at buf offset valLen in
      let offset := u64 (offset + u64 n) in
      let* (buf, n) := copy_at buf offset val in
      Ok (buf, o)
    else
      let fieldBegin := u64 (offset - u64 tagLen) in
      let fieldEnd := u64 (offset + u64 oldLen) in
      let* src := slice_from buf fieldEnd in
      let* (buf, _) := copy_at buf fieldBegin src in
      let removedBytes := u64 (fieldEnd - fieldBegin) in
      let* buf := slice_to buf (u64 (zlen buf - removedBytes)) in
      let o := mkOffsets (adjust_array (oa o) fieldEnd removedBytes) (om o) in
      let* o := adjust_map_keys (map_keys o) fieldEnd removedBytes o in
      append_new buf o
  else append_new buf o.

(** zeropb.go:493-511 *)
Definition fieldDataSize_u (uv : list Z -> Z * Z) (typ : Z) (buf : list Z) : res Z :=
  if typ =? WireVarint then Ok (uv buf).2
  else if typ =? WireFixed32 then Ok 4
  else if typ =? WireFixed64 then Ok 8
  else if typ =? WireBytes then
    let '(len, lenSize) := uv buf in
    if lenSize =? 0 then Ok 0 else Ok (i64 (lenSize + i64 len))
  else Panic.

(** zeropb.go:423-466 *)
Definition decode_loop_u (uv : list Z -> Z * Z) := fix decode_loop_u (fuel : nat) (buf : list Z) (reps : list Z) (idx : Z)
    (o : offsets) {struct fuel} : res (option error * offsets) :=
  match fuel with
  | O => OutOfFuel
  | S fuel =>
    if idx =? zlen buf then Ok (None, o)
    else if zlen buf <? idx then Ok (Some ErrUnexpectedEOF, o)
    else
      let* b := slice_from buf idx in
      let '(tag, size) := uv b in
      if size =? 0 then Ok (Some ErrUnexpectedEOF, o)
      else
        let idx := i64 (idx + size) in
        if zlen buf <=? idx then Ok (Some ErrUnexpectedEOF, o)
        else
          let fieldID := i64 (Z.shiftr tag 3) in
          let typ := Z.land tag 7 in
          let* o :=
            (if is_repeated reps fieldID then
               let* (_, ok) := offsets_get o fieldID in
               if ok then Ok o else offsets_set o fieldID (u64 idx)
             else offsets_set o fieldID (u64 idx)) in
          let* b := slice_from buf idx in
          let* s := fieldDataSize_u uv typ b in
          if s =? 0 then Ok (Some ErrUnexpectedEOF, o)
          else decode_loop_u fuel buf reps (i64 (idx + s)) o
  end.

(** zeropb.go:421-467 *)
Definition Decode_u (uv : list Z -> Z * Z) (fuel : nat) (buf : list Z) (o : offsets) (reps : list Z)
  : res (option error * offsets) :=
  decode_loop_u uv fuel buf reps 0 (offsets_clear o).

(** zeropb.go:480-489 *)
Definition find_loop_u (uv : list Z -> Z * Z) := fix find_loop_u (fuel : nat) (buf : list Z) (field idx : Z) {struct fuel}
  : res (option (list Z)) :=
  match fuel with
  | O => OutOfFuel
  | S fuel =>
    if idx <? zlen buf then
      let* b := slice_from buf idx in
      let '(tag, size) := uv b in
      let idx := i64 (idx + size) in
      let f := i64 (Z.shiftr tag 3) in
      let typ := Z.land tag 7 in
      if f =? field then
        let* rest := slice_from buf idx in Ok (Some rest)
      else
        let* b := slice_from buf idx in
        let* s := fieldDataSize_u uv typ b in
        find_loop_u fuel buf field (i64 (idx + s))
    else Ok None
  end.

(** zeropb.go:472-491 *)
Definition FindNextField_u (uv : list Z -> Z * Z) (fuel : nat) (buf : option (list Z)) (field : Z)
  : res (option (list Z) * option (list Z)) :=
  match buf with
  | None => Ok (None, None)
  | Some buf =>
    let '(msgLen, lenSize) := uv buf in
    let idx := i64 (lenSize + i64 msgLen) in
    let* msg := slice_range buf lenSize idx in
    let* rest := find_loop_u uv fuel buf field idx in
    Ok (rest, Some msg)
  end.

(** ** The methods of a generated struct (test.zeropb.go:39-216) *)

(** test.zeropb.go:39-42 *)
Definition m_Decode_u (uv : list Z -> Z * Z) (mt : mtype) (m : msg) (buf : list Z) : res (option error * msg) :=
  let* (err, o) := Decode_u uv (fuel_of buf) buf (moff m) (reps mt) in
  Ok (err, mkMsg buf o).

(** The getters: zeropb.go:17-169 called from test.zeropb.go:52-178. *)
Definition m_get_u (uv : list Z -> Z * Z) (T : ptype) (m : msg) (f : Z) : res pval :=
  let buf := mbuf m in let o := moff m in
  match T with
  | PBool => let* b := get_varint_u uv false (fun x => 0 <? x) buf o f in Ok (VBool b)
  | PInt32 => let* x := get_varint_u uv 0 i32 buf o f in Ok (VNum x)
  | PInt64 => let* x := get_varint_u uv 0 i64 buf o f in Ok (VNum x)
  | PUint32 => let* x := get_varint_u uv 0 u32 buf o f in Ok (VNum x)
  | PUint64 => let* x := get_varint_u uv 0 (fun x => x) buf o f in Ok (VNum x)
  | PSint32 => let* x := get_zigzag_u uv i32 buf o f in Ok (VNum x)
  | PSint64 => let* x := get_zigzag_u uv (fun x => x) buf o f in Ok (VNum x)
  | PString => let* x := GetString_u uv buf o f in Ok (VString x)
  | PBytes => let* x := GetBytes_u uv buf o f in Ok (VBytes x)
  | _ => m_get T m f  (* the fixed-width getters do not call Uvarint *)
  end.

(** The setters: zeropb.go:173-315 called from test.zeropb.go:56-182. *)
Definition m_set_u (uv : list Z -> Z * Z) (T : ptype) (m : msg) (f : Z) (v : pval) : res msg :=
  let set := setSingle_u uv (mbuf m) (moff m) f in
  let* (buf, o) :=
    match T, v with
    | PBool, VBool b => set WireVarint [] [if b then 1 else 0]
    | (PInt32 | PInt64), VNum x => let* val := put_uvarint MaxVarintLen64 (u64 x) in set WireVarint [] val
    | PUint32, VNum x => let* val := put_uvarint MaxVarintLen32 (u64 x) in set WireVarint [] val
    | PUint64, VNum x => let* val := put_uvarint MaxVarintLen64 x in set WireVarint [] val
    | PSint32, VNum x => let* val := put_varint MaxVarintLen32 x in set WireVarint [] val
    | PSint64, VNum x => let* val := put_varint MaxVarintLen64 x in set WireVarint [] val
    | (PFixed32 | PFloat), VNum x => set WireFixed32 [] (put_le32 x)
    | PSfixed32, VNum x => set WireFixed32 [] (put_le32 (u32 x))
    | (PFixed64 | PDouble), VNum x => set WireFixed64 [] (put_le64 x)
    | PSfixed64, VNum x => set WireFixed64 [] (put_le64 (u64 x))
    | PString, VString x => let* valLen := put_uvarint MaxVarintLen64 (u64 (zlen x)) in set WireBytes valLen x
    | PBytes, VBytes x =>
        let* valLen := put_uvarint MaxVarintLen64 (u64 (zlen (default [] x))) in set WireBytes valLen (default [] x)
    | _, _ => Panic
    end in
  Ok (mkMsg buf o).

(** test.zeropb.go:184-190 *)
Definition m_Message_u (uv : list Z -> Z * Z) (mt' : mtype) (m : msg) (f : Z) (x : msg) : res (bool * option error * msg) :=
  let* buf := GetBytes_u uv (mbuf m) (moff m) f in
  match buf with
  | None => Ok (false, None, x)
  | Some buf => let* (err, x) := m_Decode_u uv mt' x buf in Ok (true, err, x)
  end.

(** test.zeropb.go:200-207 *)
Definition it_Next_u (uv : list Z -> Z * Z) (mt' : mtype) (it : option (list Z)) (f : Z) (m : msg)
  : res (option (list Z) * bool * option error * msg) :=
  let* (it, buf) := FindNextField_u uv (find_fuel it) it f in
  match buf with
  | None => Ok (it, false, None, m)
  | Some buf => let* (err, m) := m_Decode_u uv mt' m buf in Ok (it, true, err, m)
  end.

(** The client loop over an iterator. *)
Definition iterate_u (uv : list Z -> Z * Z) := fix iterate_u (n : nat) (mt' : mtype) (it : option (list Z)) (f : Z) (m : msg) {struct n}
  : res (list (option error * msg)) :=
  match n with
  | O => OutOfFuel
  | S n =>
    let* (it, ok, err, m) := it_Next_u uv mt' it f m in
    if (ok : bool) then
      let* l := iterate_u n mt' it f m in Ok ((err, m) :: l)
    else Ok []
  end.
Definition m_iterate_u (uv : list Z -> Z * Z) (n : nat) (mt' : mtype) (m : msg) (f : Z) (x : msg)
  : res (list (option error * msg)) :=
  let* it := m_Iter m f in iterate_u uv n mt' it f x.

(** One operation; as [step] of Api.v. *)
Definition step_u (uv : list Z -> Z * Z) (mt : mtype) (sc : schema) (m : msg) (o : op) : res msg :=
  match o with
  | OSet f v => match sc f with Some (KSingle T) => m_set_u uv T m f v | _ => Panic end
  | OAppend f x => m_append m f x
  | OReset => m_Reset m []
  | ODecode _ bs =>
    let* (err, m) := m_Decode_u uv mt m bs in
    match err with None => Ok m | Some _ => Panic end
  end.
Fixpoint run_u (uv : list Z -> Z * Z) (mt : mtype) (sc : schema) (m : msg) (os : list op) : res msg :=
  match os with
  | [] => Ok m
  | o :: os => let* m := step_u uv mt sc m o in run_u uv mt sc m os
  end.

(** One call of an arbitrary client; as [exec] of Api.v. *)
Definition exec_u (uv : list Z -> Z * Z) (mt : mtype) (m : msg) (c : call) : res (answer * msg) :=
  match c with
  | CGet T f => let* v := m_get_u uv T m f in Ok (AVal v, m)
  | CSet T f v => let* m' := m_set_u uv T m f v in Ok (AUnit, m')
  | CAppend f x => let* m' := m_append m f x in Ok (AUnit, m')
  | CMessage mt' f x => let* (ok, err, y) := m_Message_u uv mt' m f x in Ok (AMessage ok err y, m)
  | CIterate n mt' f x => let* l := m_iterate_u uv n mt' m f x in Ok (AList l, m)
  | CEncode => Ok (ABytes (m_Encode m), m)
  | CDecode buf => let* (err, m') := m_Decode_u uv mt m buf in Ok (AError err, m')
  | CReset buf => let* m' := m_Reset m buf in Ok (AUnit, m')
  end.

(** ** With the Uvarint of Go 1.12 this is Runtime.v *)
Lemma decode_u_12 : m_Decode_u uvarint = m_Decode.
Proof. reflexivity. Qed.
Lemma get_u_12 T m f : m_get_u uvarint T m f = m_get T m f.
Proof. destruct T; reflexivity. Qed.
Lemma set_u_12 T m f v : m_set_u uvarint T m f v = m_set T m f v.
Proof. destruct T, v; reflexivity. Qed.
Lemma message_u_12 : m_Message_u uvarint = m_Message.
Proof. reflexivity. Qed.
Lemma iterate_u_12 : m_iterate_u uvarint = m_iterate.
Proof. reflexivity. Qed.
Lemma exec_u_12 mt m c : exec_u uvarint mt m c = exec mt m c.
Proof. destruct c; cbn [exec_u exec]; [rewrite get_u_12|rewrite set_u_12|..]; reflexivity. Qed.

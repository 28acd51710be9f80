(** * Model of /repo/zeropb.go over byte values *)
From Verif Require Export Varint Offsets.

(** github.com/golang/protobuf/proto wire type constants. *)
Definition WireVarint : Z := 0.
Definition WireFixed64 : Z := 1.
Definition WireBytes : Z := 2.
Definition WireFixed32 : Z := 5.

(** The shape shared by every getter (e.g. zeropb.go:18-21): look the offset
    up, return the zero value if the field is not set. *)
Definition with_offset {A} (o : offsets) (fieldID : Z) (dflt : A)
    (k : Z -> res A) : res A :=
  let* (offset, ok) := offsets_get o fieldID in
  if ok then k offset else Ok dflt.

(** zeropb.go:17-24 *)
Definition GetBool (buf : list Z) (o : offsets) (fieldID : Z) : res bool :=
  with_offset o fieldID false (fun offset =>
    let* b := slice_from buf offset in
    let '(x, _) := uvarint b in Ok (0 <? x)).

(** zeropb.go:27-34 *)
Definition GetInt32 (buf : list Z) (o : offsets) (fieldID : Z) : res Z :=
  with_offset o fieldID 0 (fun offset =>
    let* b := slice_from buf offset in
    let '(x, _) := uvarint b in Ok (i32 x)).

(** zeropb.go:37-44 *)
Definition GetInt64 (buf : list Z) (o : offsets) (fieldID : Z) : res Z :=
  with_offset o fieldID 0 (fun offset =>
    let* b := slice_from buf offset in
    let '(x, _) := uvarint b in Ok (i64 x)).

(** zeropb.go:47-54 *)
Definition GetUint32 (buf : list Z) (o : offsets) (fieldID : Z) : res Z :=
  with_offset o fieldID 0 (fun offset =>
    let* b := slice_from buf offset in
    let '(x, _) := uvarint b in Ok (u32 x)).

(** zeropb.go:57-64 *)
Definition GetUint64 (buf : list Z) (o : offsets) (fieldID : Z) : res Z :=
  with_offset o fieldID 0 (fun offset =>
    let* b := slice_from buf offset in
    let '(x, _) := uvarint b in Ok x).

(** zeropb.go:67-74 *)
Definition GetZigZagInt32 (buf : list Z) (o : offsets) (fieldID : Z) : res Z :=
  with_offset o fieldID 0 (fun offset =>
    let* b := slice_from buf offset in
    let '(x, _) := varint b in Ok (i32 x)).

(** zeropb.go:77-84 *)
Definition GetZigZagInt64 (buf : list Z) (o : offsets) (fieldID : Z) : res Z :=
  with_offset o fieldID 0 (fun offset =>
    let* b := slice_from buf offset in
    let '(x, _) := varint b in Ok x).

(** zeropb.go:88-94.  [offset] is a uint64, so [offset+4] wraps. *)
Definition GetFixedUint32 (buf : list Z) (o : offsets) (fieldID : Z) : res Z :=
  with_offset o fieldID 0 (fun offset =>
    let* b := slice_range buf offset (u64 (offset + 4)) in
    le_uint32 b).

(** zeropb.go:98-104 *)
Definition GetFixedUint64 (buf : list Z) (o : offsets) (fieldID : Z) : res Z :=
  with_offset o fieldID 0 (fun offset =>
    let* b := slice_range buf offset (u64 (offset + 8)) in
    le_uint64 b).

(** zeropb.go:108-114 *)
Definition GetFixedInt32 (buf : list Z) (o : offsets) (fieldID : Z) : res Z :=
  with_offset o fieldID 0 (fun offset =>
    let* b := slice_range buf offset (u64 (offset + 4)) in
    let* x := le_uint32 b in Ok (i32 x)).

(** zeropb.go:118-124 *)
Definition GetFixedInt64 (buf : list Z) (o : offsets) (fieldID : Z) : res Z :=
  with_offset o fieldID 0 (fun offset =>
    let* b := slice_range buf offset (u64 (offset + 8)) in
    let* x := le_uint64 b in Ok (i64 x)).

(** zeropb.go:128-135.  Simplification: a float is its IEEE 754 bit pattern, so
    math.Float32frombits / math.Float32bits are identities. *)
Definition GetFloat32 (buf : list Z) (o : offsets) (fieldID : Z) : res Z :=
  with_offset o fieldID 0 (fun offset =>
    let* b := slice_range buf offset (u64 (offset + 4)) in
    le_uint32 b).

(** zeropb.go:139-146; same simplification. *)
Definition GetFloat64 (buf : list Z) (o : offsets) (fieldID : Z) : res Z :=
  with_offset o fieldID 0 (fun offset =>
    let* b := slice_range buf offset (u64 (offset + 8)) in
    le_uint64 b).

(** zeropb.go:149-158.  A string is its bytes; the unsafe cast keeps pointer
    and length. *)
Definition GetString (buf : list Z) (o : offsets) (fieldID : Z) : res (list Z) :=
  with_offset o fieldID [] (fun offset =>
    let* b := slice_from buf offset in
    let '(len, lenSize) := uvarint b in
    let offset := u64 (offset + u64 lenSize) in
    slice_range buf offset (u64 (offset + len))).

(** zeropb.go:161-169.  [None] is a nil slice. *)
Definition GetBytes (buf : list Z) (o : offsets) (fieldID : Z) : res (option (list Z)) :=
  with_offset o fieldID None (fun offset =>
    let* b := slice_from buf offset in
    let '(len, lenSize) := uvarint b in
    let offset := u64 (offset + u64 lenSize) in
    let* d := slice_range buf offset (u64 (offset + len)) in
    Ok (Some d)).

(** zeropb.go:331, 394: [uint64(fieldID<<3 | typ)] *)
Definition make_tag (fieldID typ : Z) : Z :=
  u64 (Z.lor (i64 (Z.shiftl fieldID 3)) typ).

(** zeropb.go:335-348: the length of the value being replaced. *)
Definition old_len (buf : list Z) (offset typ : Z) : res Z :=
  if typ =? WireVarint then
    let* b := slice_from buf offset in
    let '(_, n) := uvarint b in Ok n
  else if typ =? WireFixed32 then Ok 4
  else if typ =? WireFixed64 then Ok 8
  else if typ =? WireBytes then
    let* b := slice_from buf offset in
    let '(oldValLen, oldValLenLen) := uvarint b in
    Ok (i64 (i64 oldValLen + oldValLenLen))
  else Panic.

(** zeropb.go:369-374: shift the array cells above [fieldEnd]. *)
Definition adjust_array (a : list Z) (fieldEnd removedBytes : Z) : list Z :=
  map (fun offset =>
         if negb (offset =? 65535) && (fieldEnd <? offset)
         then u16 (offset - u16 removedBytes) else offset) a.

(** zeropb.go:376-380, one iteration for key [k].  The loop body only touches
    the key being visited, so every key present at the start is visited exactly
    once, with the value it then has. *)
Definition adjust_map_key (fieldEnd removedBytes k : Z) (o : offsets) : res offsets :=
  match om o with
  | None => Ok o
  | Some m =>
    match m !! k with
    | None => Ok o
    | Some offset =>
      if fieldEnd <? offset then offsets_set o k (u64 (offset - removedBytes)) else Ok o
    end
  end.

(** zeropb.go:375-381, visiting the keys in the order [ks]. *)
Fixpoint adjust_map_keys (ks : list Z) (fieldEnd removedBytes : Z) (o : offsets)
  : res offsets :=
  match ks with
  | [] => Ok o
  | k :: ks =>
    let* o := adjust_map_key fieldEnd removedBytes k o in
    adjust_map_keys ks fieldEnd removedBytes o
  end.

(** The keys of the overflow map in one particular order. *)
Definition map_keys (o : offsets) : list Z :=
  match om o with None => [] | Some m => (map_to_list m).*1 end.

(** zeropb.go:326-389, setSingle.  [order] is the order in which the Go
    run-time iterates the map, as a function of its keys. *)
Definition setSingle_ord (order : list Z -> list Z) (buf : list Z) (o : offsets)
    (fieldID typ : Z) (valLen val : list Z) : res (list Z * offsets) :=
  let tag := make_tag fieldID typ in
  let* tagBytes := put_uvarint MaxVarintLen64 tag in
  let tagLen := zlen tagBytes in
  let append_new (buf : list Z) (o : offsets) :=
    let buf := buf ++ tagBytes in
    let offset := zlen buf in
    let* o := offsets_set o fieldID (u64 offset) in
    Ok (buf ++ valLen ++ val, o) in
  let* (offset, ok) := offsets_get o fieldID in
  if ok then
    let* oldLen := old_len buf offset typ in
    if oldLen =? zlen valLen + zlen val then
      let* (buf, n) := copy_at buf offset valLen in
      let offset := u64 (offset + u64 n) in
      let* (buf, n) := copy_at buf offset val in
      Ok (buf, o)
    else
      let fieldBegin := u64 (offset - u64 tagLen) in
      let fieldEnd := u64 (offset + u64 oldLen) in
      let* src := slice_from buf fieldEnd in
      let* (buf, _) := copy_at buf fieldBegin src in
      let removedBytes := u64 (fieldEnd - fieldBegin) in
      let* buf := slice_to buf (u64 (zlen buf - removedBytes)) in
      let o := mkOffsets (adjust_array (oa o) fieldEnd removedBytes) (om o) in
      let* o := adjust_map_keys (order (map_keys o)) fieldEnd removedBytes o in
      append_new buf o
  else append_new buf o.

Definition setSingle := setSingle_ord (fun ks => ks).

(** zeropb.go:391-405, appendSingle *)
Definition appendSingle (buf : list Z) (o : offsets) (fieldID typ : Z)
    (valLen val : list Z) : res (list Z * offsets) :=
  let tag := make_tag fieldID typ in
  let* tagBytes := put_uvarint MaxVarintLen64 tag in
  let buf := buf ++ tagBytes in
  let offset := zlen buf in
  let* (_, ok) := offsets_get o fieldID in
  let* o := (if ok then Ok o else offsets_set o fieldID (u64 offset)) in
  Ok (buf ++ valLen ++ val, o).

(** zeropb.go:173-180 *)
Definition SetBool_ord (order : list Z -> list Z) (buf : list Z) (o : offsets) (fieldID : Z) (x : bool) :=
  setSingle_ord order buf o fieldID WireVarint [] [if x then 1 else 0].
Definition SetBool := SetBool_ord (fun ks => ks).

(** zeropb.go:184-190: [uint64(x)] of an int32 sign-extends. *)
Definition SetInt32_ord (order : list Z -> list Z) (buf : list Z) (o : offsets) (fieldID x : Z) :=
  let* val := put_uvarint MaxVarintLen64 (u64 x) in
  setSingle_ord order buf o fieldID WireVarint [] val.
Definition SetInt32 := SetInt32_ord (fun ks => ks).

(** zeropb.go:194-199 *)
Definition SetInt64_ord (order : list Z -> list Z) (buf : list Z) (o : offsets) (fieldID x : Z) :=
  let* val := put_uvarint MaxVarintLen64 (u64 x) in
  setSingle_ord order buf o fieldID WireVarint [] val.
Definition SetInt64 := SetInt64_ord (fun ks => ks).

(** zeropb.go:203-208 *)
Definition SetUint32_ord (order : list Z -> list Z) (buf : list Z) (o : offsets) (fieldID x : Z) :=
  let* val := put_uvarint MaxVarintLen32 (u64 x) in
  setSingle_ord order buf o fieldID WireVarint [] val.
Definition SetUint32 := SetUint32_ord (fun ks => ks).

(** zeropb.go:212-217 *)
Definition SetUint64_ord (order : list Z -> list Z) (buf : list Z) (o : offsets) (fieldID x : Z) :=
  let* val := put_uvarint MaxVarintLen64 x in
  setSingle_ord order buf o fieldID WireVarint [] val.
Definition SetUint64 := SetUint64_ord (fun ks => ks).

(** zeropb.go:221-226 *)
Definition SetZigZagInt32_ord (order : list Z -> list Z) (buf : list Z) (o : offsets) (fieldID x : Z) :=
  let* val := put_varint MaxVarintLen32 x in
  setSingle_ord order buf o fieldID WireVarint [] val.
Definition SetZigZagInt32 := SetZigZagInt32_ord (fun ks => ks).

(** zeropb.go:230-235 *)
Definition SetZigZagInt64_ord (order : list Z -> list Z) (buf : list Z) (o : offsets) (fieldID x : Z) :=
  let* val := put_varint MaxVarintLen64 x in
  setSingle_ord order buf o fieldID WireVarint [] val.
Definition SetZigZagInt64 := SetZigZagInt64_ord (fun ks => ks).

(** zeropb.go:239-244 *)
Definition SetFixedUint32_ord (order : list Z -> list Z) (buf : list Z) (o : offsets) (fieldID x : Z) :=
  setSingle_ord order buf o fieldID WireFixed32 [] (put_le32 x).
Definition SetFixedUint32 := SetFixedUint32_ord (fun ks => ks).

(** zeropb.go:248-253 *)
Definition SetFixedUint64_ord (order : list Z -> list Z) (buf : list Z) (o : offsets) (fieldID x : Z) :=
  setSingle_ord order buf o fieldID WireFixed64 [] (put_le64 x).
Definition SetFixedUint64 := SetFixedUint64_ord (fun ks => ks).

(** zeropb.go:257-262 *)
Definition SetFixedInt32_ord (order : list Z -> list Z) (buf : list Z) (o : offsets) (fieldID x : Z) :=
  setSingle_ord order buf o fieldID WireFixed32 [] (put_le32 (u32 x)).
Definition SetFixedInt32 := SetFixedInt32_ord (fun ks => ks).

(** zeropb.go:266-271 *)
Definition SetFixedInt64_ord (order : list Z -> list Z) (buf : list Z) (o : offsets) (fieldID x : Z) :=
  setSingle_ord order buf o fieldID WireFixed64 [] (put_le64 (u64 x)).
Definition SetFixedInt64 := SetFixedInt64_ord (fun ks => ks).

(** zeropb.go:275-281; floats are bit patterns. *)
Definition SetFloat32_ord (order : list Z -> list Z) (buf : list Z) (o : offsets) (fieldID x : Z) :=
  setSingle_ord order buf o fieldID WireFixed32 [] (put_le32 x).
Definition SetFloat32 := SetFloat32_ord (fun ks => ks).

(** zeropb.go:285-291; floats are bit patterns. *)
Definition SetFloat64_ord (order : list Z -> list Z) (buf : list Z) (o : offsets) (fieldID x : Z) :=
  setSingle_ord order buf o fieldID WireFixed64 [] (put_le64 x).
Definition SetFloat64 := SetFloat64_ord (fun ks => ks).

(** zeropb.go:295-306 *)
Definition SetString_ord (order : list Z -> list Z) (buf : list Z) (o : offsets) (fieldID : Z) (x : list Z) :=
  let* valLen := put_uvarint MaxVarintLen64 (u64 (zlen x)) in
  setSingle_ord order buf o fieldID WireBytes valLen x.
Definition SetString := SetString_ord (fun ks => ks).

(** zeropb.go:310-315.  A nil argument has length 0 and is passed as []. *)
Definition SetBytes_ord (order : list Z -> list Z) (buf : list Z) (o : offsets) (fieldID : Z) (x : list Z) :=
  let* valLen := put_uvarint MaxVarintLen64 (u64 (zlen x)) in
  setSingle_ord order buf o fieldID WireBytes valLen x.
Definition SetBytes := SetBytes_ord (fun ks => ks).

(** zeropb.go:319-324 *)
Definition AppendBytes (buf : list Z) (o : offsets) (fieldID : Z) (x : list Z) :=
  let* valLen := put_uvarint MaxVarintLen64 (u64 (zlen x)) in
  appendSingle buf o fieldID WireBytes valLen x.

(** zeropb.go:411-417.  [None] is a nil slice. *)
Definition GetRepeatedNonPacked (buf : list Z) (o : offsets) (fieldID : Z)
  : res (option (list Z)) :=
  with_offset o fieldID None (fun offset =>
    let* b := slice_from buf offset in Ok (Some b)).

(** zeropb.go:493-511 *)
Definition fieldDataSize (typ : Z) (buf : list Z) : res Z :=
  if typ =? WireVarint then Ok (uvarint buf).2
  else if typ =? WireFixed32 then Ok 4
  else if typ =? WireFixed64 then Ok 8
  else if typ =? WireBytes then
    let '(len, lenSize) := uvarint buf in
    if lenSize =? 0 then Ok 0 else Ok (i64 (lenSize + i64 len))
  else Panic.

(** The only error value Decode returns (io.ErrUnexpectedEOF). *)
Inductive error := ErrUnexpectedEOF.

(** zeropb.go:514, RepeatedFields: the set of repeated field ids. *)
Definition is_repeated (reps : list Z) (f : Z) : bool := existsb (Z.eqb f) reps.

(** zeropb.go:423-466: the loop of Decode; one unit of fuel per iteration. *)
Fixpoint decode_loop (fuel : nat) (buf : list Z) (reps : list Z) (idx : Z)
    (o : offsets) : res (option error * offsets) :=
  match fuel with
  | O => OutOfFuel
  | S fuel =>
    if idx =? zlen buf then Ok (None, o)
    else if zlen buf <? idx then Ok (Some ErrUnexpectedEOF, o)
    else
      let* b := slice_from buf idx in
      let '(tag, size) := uvarint b in
      if size =? 0 then Ok (Some ErrUnexpectedEOF, o)
      else
        let idx := i64 (idx + size) in
        if zlen buf <=? idx then Ok (Some ErrUnexpectedEOF, o)
        else
          let fieldID := i64 (Z.shiftr tag 3) in
          let typ := Z.land tag 7 in
          let* o :=
            (if is_repeated reps fieldID then
               let* (_, ok) := offsets_get o fieldID in
               if ok then Ok o else offsets_set o fieldID (u64 idx)
             else offsets_set o fieldID (u64 idx)) in
          let* b := slice_from buf idx in
          let* s := fieldDataSize typ b in
          if s =? 0 then Ok (Some ErrUnexpectedEOF, o)
          else decode_loop fuel buf reps (i64 (idx + s)) o
  end.

(** zeropb.go:421-467 *)
Definition Decode (fuel : nat) (buf : list Z) (o : offsets) (reps : list Z)
  : res (option error * offsets) :=
  decode_loop fuel buf reps 0 (offsets_clear o).

(** zeropb.go:480-489: the search loop of FindNextField. *)
Fixpoint find_loop (fuel : nat) (buf : list Z) (field idx : Z)
  : res (option (list Z)) :=
  match fuel with
  | O => OutOfFuel
  | S fuel =>
    if idx <? zlen buf then
      let* b := slice_from buf idx in
      let '(tag, size) := uvarint b in
      let idx := i64 (idx + size) in
      let f := i64 (Z.shiftr tag 3) in
      let typ := Z.land tag 7 in
      if f =? field then
        let* rest := slice_from buf idx in Ok (Some rest)
      else
        let* b := slice_from buf idx in
        let* s := fieldDataSize typ b in
        find_loop fuel buf field (i64 (idx + s))
    else Ok None
  end.

(** zeropb.go:472-491.  [None] is a nil slice; a slice of a non-nil slice is
    non-nil.  Result: (rest, msg). *)
Definition FindNextField (fuel : nat) (buf : option (list Z)) (field : Z)
  : res (option (list Z) * option (list Z)) :=
  match buf with
  | None => Ok (None, None)
  | Some buf =>
    let '(msgLen, lenSize) := uvarint buf in
    let idx := i64 (lenSize + i64 msgLen) in
    let* msg := slice_range buf lenSize idx in
    let* rest := find_loop fuel buf field idx in
    Ok (rest, Some msg)
  end.

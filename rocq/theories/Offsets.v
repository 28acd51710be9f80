(** * Model of /repo/offsets.go *)
From Verif Require Export GoBase.

(** offsets.go:9-16: [offsetUnset = 0], [offsetInMap = math.MaxUint16],
    [offsetMaxInArray = offsetInMap - 1]. *)
Definition offsetUnset : Z := 0.
Definition offsetInMap : Z := 65535.
Definition offsetMaxInArray : Z := 65534.

(** offsets.go:35-38, type Offsets, together with the two fields of the
    generated struct it wraps (golden/raftzeropb/raft.zeropb.go:7-13):
    [oa] is the array, [om] the lazily allocated map ([None] is a nil map).
    WrapOffsets (offsets.go:42-44) only packages pointers to these fields, so
    every function below returns the new contents.
    Simplification: the pointer [o.m] itself is never nil, as in all generated
    code; map references shared by struct copies are in Heap.v. *)
Record offsets : Type := mkOffsets { oa : list Z; om : option (gmap Z Z) }.

(** [o.a[fieldID]] as an rvalue; panics when out of range. *)
Definition arr_get (a : list Z) (i : Z) : res Z :=
  if (0 <=? i) && (i <? zlen a) then
    match a !! Z.to_nat i with Some x => Ok x | None => Panic end
  else Panic.

(** [o.a[fieldID] = v]; panics when out of range. *)
Definition arr_set (a : list Z) (i v : Z) : res (list Z) :=
  if (0 <=? i) && (i <? zlen a) then Ok (<[Z.to_nat i := v]> a) else Panic.

(** Lookup in a Go map: the zero value when absent or when the map is nil. *)
Definition map_get (m : option (gmap Z Z)) (k : Z) : Z :=
  match m with Some m => default 0 (m !! k) | None => 0 end.

(** [delete(m, k)]: a no-op on a nil map. *)
Definition map_delete (m : option (gmap Z Z)) (k : Z) : option (gmap Z Z) :=
  match m with Some m => Some (delete k m) | None => None end.

(** offsets.go:47-54, Offsets.Get *)
Definition offsets_get (o : offsets) (fieldID : Z) : res (Z * bool) :=
  let* offset := arr_get (oa o) fieldID in
  if negb (offset =? offsetInMap) then Ok (offset, negb (offset =? offsetUnset))
  else Ok (map_get (om o) fieldID, true).

(** offsets.go:57-74, Offsets.Set *)
Definition offsets_set (o : offsets) (fieldID offset : Z) : res offsets :=
  if offset <=? offsetMaxInArray then
    let* previous := arr_get (oa o) fieldID in
    let m' := if previous =? offsetInMap then map_delete (om o) fieldID else om o in
    let* a' := arr_set (oa o) fieldID (u16 offset) in
    Ok (mkOffsets a' m')
  else
    let* a' := arr_set (oa o) fieldID offsetInMap in
    let m' := match om o with None => ∅ | Some m => m end in
    Ok (mkOffsets a' (Some (<[fieldID := offset]> m'))).

(** offsets.go:77-86, Offsets.Clear.  The loop deleting every key leaves an
    empty, still allocated map. *)
Definition offsets_clear (o : offsets) : offsets :=
  mkOffsets (map (fun _ => offsetUnset) (oa o))
            (match om o with Some _ => Some ∅ | None => None end).

(** The zero value of the [offsets] field of a generated struct with an array
    of [n] cells (golden/raftzeropb/raft.zeropb.go:9-12). *)
Definition offsets_zero (n : nat) : offsets := mkOffsets (replicate n 0) None.

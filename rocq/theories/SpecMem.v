(** * What a call writes to the memory under a message

    A message lies in an array; [W] are the array's cells from the message's first
    byte up to its capacity (the message is a prefix of [W]).  Slices, strings,
    iterators, sub-messages and copies obtained earlier lie in the same cells.
    This specifies the cells after a setter or an append, on top of the machine of
    SpecPos.v, and uses nothing of the model of the code. *)
From Verif Require Import Spec SpecScan SpecFind SpecPos.

(** [W] with [x] written at position [i]. *)
Definition put (W : list Z) (i : nat) (x : list Z) : list Z := firstn i W ++ x ++ skipn (i + length x) W.

(** A record is added in pieces (tag, length, value).  The pieces that are written
    in place: those before the first one for which there is no room left ... *)
Fixpoint placed (room : nat) (ps : list (list Z)) : list Z :=
  match ps with
  | [] => []
  | p :: ps => if (length p <=? room)%nat then p ++ placed (room - length p) ps else []
  end.
(** ... at which point the message moves to another array. *)
Definition stays (room : nat) (ps : list (list Z)) : bool := (length (concat ps) <=? room)%nat.

(** The pieces of a record. *)
Inductive pieces (f : Z) (w : wval) : list Z -> list Z -> list Z -> Prop :=
| pieces_bytes x tb lb : minimal_tag_enc (f, w) tb -> w = WBytes x -> is_minimal_varint (Z.of_nat (length x)) lb -> pieces f w tb lb x
| pieces_other tb x : minimal_tag_enc (f, w) tb -> wire_type w <> 2 -> canonical_payload w x -> pieces f w tb [] x.

(** The cells after adding a record to a message of [n] bytes. *)
Definition added (W : list Z) (n : nat) (ps : list (list Z)) : list Z := put W n (placed (length W - n) ps).

(** The setter of field [f], type [T]: the cells afterwards, and whether the message
    still is in them. *)
Inductive leaves (T : ptype) (f : Z) (v : pval) (s : pstate) (W : list Z) : list Z -> bool -> Prop :=
| leaves_first tb lb x : pieces f (wire_of T v) tb lb x -> ppos s f = None ->
    leaves T f v s W (added W (length (pbytes s)) [tb; lb; x]) (stays (length W - length (pbytes s)) [tb; lb; x])
| leaves_same p tb lb x : pieces f (wire_of T v) tb lb x -> ppos s f = Some p -> p <= plen s ->
    occupies T (pbytes s) p (Z.of_nat (length (lb ++ x))) ->
    leaves T f v s W (put W (Z.to_nat p) (firstn (Z.to_nat (plen s - p)) (lb ++ x))) true
| leaves_other p k tb lb x b e n : pieces f (wire_of T v) tb lb x -> ppos s f = Some p -> p <= plen s ->
    occupies T (pbytes s) p k -> k <> Z.of_nat (length (lb ++ x)) ->
    b = p - Z.of_nat (length tb) -> e = p + k -> 0 <= b <= e -> e <= plen s ->
    n = Z.to_nat (plen s - (e - b)) ->
    leaves T f v s W (added (put W (Z.to_nat b) (skipn (Z.to_nat e) (pbytes s))) n [tb; lb; x]) (stays (length W - n) [tb; lb; x]).

(** An append of the bytes [x]. *)
Inductive leaves_append (f : Z) (x : list Z) (s : pstate) (W : list Z) : list Z -> bool -> Prop :=
| leaves_appended tb lb : pieces f (WBytes x) tb lb x ->
    leaves_append f x s W (added W (length (pbytes s)) [tb; lb; x]) (stays (length W - length (pbytes s)) [tb; lb; x]).

(** A getter on a message lying in the cells [W]: [None], it panics.  Where it
    reaches beyond the message, it reads as if the message went on to the end of
    the cells. *)
Inductive gets_in (T : ptype) (s : pstate) (W : list Z) (f : Z) : option pval -> Prop :=
| gets_inside v : gets T s f (Value v) -> gets_in T s W f (Some v)
| gets_fault : gets T s f Fault -> gets_in T s W f None
| gets_behind p v : gets T s f Beyond -> ppos s f = Some p -> obtains T W p (Value v) -> gets_in T s W f (Some v)
| gets_nothing p : gets T s f Beyond -> ppos s f = Some p -> obtains T W p Beyond -> gets_in T s W f None.

(** A call of Next on an iterator with the bytes [b] lying in the cells [W]. *)
Inductive next_in (field : Z) (b W : list Z) : next_result -> Prop :=
| next_inside r : next field b r -> r <> NBeyond -> next_in field b W r
| next_behind x hi : next field b NBeyond -> element W x hi -> next_in field b W (Last x)
| next_nothing : next field b NBeyond -> element_beyond W -> next_in field b W NFault.

(** A setter that stretches the message (C72's [OBeyond]): what is in front of the
    position, counted back over an overlong varint and forward by the length of
    the tag, makes the part to be removed negative.  The bytes of the cells behind
    the message become part of it. *)
Inductive stretches (T : ptype) (f : Z) (v : pval) (s : pstate) (W : list Z) : option pstate -> Prop :=
| stretch_done p k tb lb x b e d : pieces f (wire_of T v) tb lb x -> ppos s f = Some p -> p <= plen s ->
    occupies T (pbytes s) p k -> b = p - Z.of_nat (length tb) -> e = p + k -> 0 <= e < b -> d = b - e ->
    plen s + d <= Z.of_nat (length W) ->
    stretches T f v s W (Some (mkP
      (firstn (Z.to_nat (plen s + d)) (put W (Z.to_nat b) (firstn (Z.to_nat (plen s - b)) (skipn (Z.to_nat e) (pbytes s)))) ++ tb ++ lb ++ x)
      (pset (fun g => option_map (fun q => if e <? q then q + d else q) (ppos s g)) f (plen s + d + Z.of_nat (length tb)))))
| stretch_no_room p k tb lb x b e : pieces f (wire_of T v) tb lb x -> ppos s f = Some p -> p <= plen s ->
    occupies T (pbytes s) p k -> b = p - Z.of_nat (length tb) -> e = p + k -> 0 <= e < b ->
    Z.of_nat (length W) < plen s + (b - e) -> stretches T f v s W None.

(** * Specification: distances between records, cut records; only the wire format
    of Spec.v is used *)
From Verif Require Export Spec.

(** How many records a search for the next record of field [f] inspects, counting
    the end of the message as one. *)
Fixpoint distance (f : Z) (rs : list record) : nat :=
  match rs with [] => 1 | (g, _) :: rs => if g =? f then 1 else S (distance f rs) end.

(** For each record of field [f], in order, the distance from it to the next one
    (or to the end). *)
Fixpoint steps (f : Z) (rs : list record) : list nat :=
  match rs with
  | [] => []
  | (g, _) :: rs => if g =? f then distance f rs :: steps f rs else steps f rs
  end.
(** The records from the first one of field [f] on. *)
Fixpoint since (f : Z) (rs : list record) : list record :=
  match rs with
  | [] => []
  | (g, w) :: rs' => if g =? f then rs else since f rs'
  end.

(** The size of the cut record can be read: it has a fixed size, or its length
    prefix is there. *)
Definition size_known (w : wval) (tb pb : list Z) (k : nat) : Prop :=
  ((wire_type w = 1 \/ wire_type w = 5) /\ (length tb <= k)%nat) \/
  exists x lb, w = WBytes x /\ pb = lb ++ x /\ is_varint (Z.of_nat (length x)) lb /\ (length (tb ++ lb) <= k)%nat.


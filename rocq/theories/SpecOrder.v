(** * Where the records of a message are

    A message as the list of its records with their bytes, in order, and what every
    operation does to the list. *)
From Verif Require Import Spec.

Notation part := (record * list Z)%type.

(** The one canonical encoding of a record. *)
Definition canonical_record (r : record) (b : list Z) : Prop :=
  exists tb pb, b = tb ++ pb /\ minimal_tag_enc r tb /\ canonical_payload r.2 pb.

(** No record of field [f]. *)
Definition lacks (f : Z) (L : list part) : Prop := Forall (fun p => p.1.1 <> f) L.

Inductive arranges (sc : schema) : list part -> op -> list part -> Prop :=
(* a field without a value: at the end *)
| arranges_first L f T v b : sc f = Some (KSingle T) -> canonical_record (f, wire_of T v) b -> lacks f L ->
    arranges sc L (OSet f v) (L ++ [((f, wire_of T v), b)])
(* a value of the same size: in the place of the last one *)
| arranges_same L1 p L2 f T v b : sc f = Some (KSingle T) -> canonical_record (f, wire_of T v) b -> p.1.1 = f -> lacks f L2 ->
    length b = length p.2 -> arranges sc (L1 ++ p :: L2) (OSet f v) (L1 ++ ((f, wire_of T v), b) :: L2)
(* a value of another size: the last one is taken out, the new one is at the end *)
| arranges_moved L1 p L2 f T v b : sc f = Some (KSingle T) -> canonical_record (f, wire_of T v) b -> p.1.1 = f -> lacks f L2 ->
    length b <> length p.2 -> arranges sc (L1 ++ p :: L2) (OSet f v) (L1 ++ L2 ++ [((f, wire_of T v), b)])
| arranges_append L f x b : canonical_record (f, WBytes x) b -> arranges sc L (OAppend f x) (L ++ [((f, WBytes x), b)])
| arranges_reset L : arranges sc L OReset []
| arranges_decode L rs bs L' : wire_parts L' bs -> arranges sc L (ODecode rs bs) L'.

(** From the empty message. *)
Inductive arranged (sc : schema) : list op -> list part -> Prop :=
| arranged_nil : arranged sc [] []
| arranged_snoc os L o L' : arranged sc os L -> arranges sc L o L' -> arranged sc (os ++ [o]) L'.

(** * Specification: histories over arbitrary decoded messages.

    Used by C25.  Unlike the histories of C03, a message handed to Decode may
    contain fields the schema does not declare, fields whose wire type is not
    the declared one, and tags that are not minimally encoded.  What the setters
    do depends on the last two, so the abstract state keeps, with every value,
    whether its tag is known to be minimally encoded. *)
From Verif Require Import Spec.

(** A message together with, for every record, a flag that may be [true] only
    if the tag of the record is minimally encoded. *)
Inductive wire_tags : list (record * bool) -> list Z -> Prop :=
| wire_tags_nil : wire_tags [] []
| wire_tags_cons r (b : bool) rs tb pb bs :
    tag_enc r tb -> (b = true -> minimal_tag_enc r tb) -> payload_enc r.2 pb ->
    wire_tags rs bs -> wire_tags ((r, b) :: rs) (tb ++ pb ++ bs).

Definition occ_tags (f : Z) (rs : list (record * bool)) : list (wval * bool) :=
  flat_map (fun r : record * bool => if r.1.1 =? f then [(r.1.2, r.2)] else []) rs.

Inductive gop :=
| GSet (f : Z) (T : ptype) (v : pval)
| GAppend (f : Z) (x : list Z)
| GReset
| GDecode (rs : list (record * bool)) (bs : list Z).

(** For each field all its values, with the flags. *)
Definition grec := Z -> list (wval * bool).

(** A setter replaces the last value of its field (or adds the first), an
    append adds a value, Reset removes everything, Decode replaces everything. *)
Definition gstep (s : grec) (o : gop) : grec :=
  match o with
  | GSet f T v => fun g => if g =? f then removelast (s f) ++ [(wire_of T v, true)] else s g
  | GAppend f x => fun g => if g =? f then s f ++ [(WBytes x, true)] else s g
  | GReset => fun _ => []
  | GDecode rs _ => fun g => occ_tags g rs
  end.

(** When an operation is covered, in a message type with array length [n] and
    repeated fields [reps]: a setter needs a field number in range, not repeated,
    and either no value yet or a last value of its own wire type with a minimally
    encoded tag.  Decode needs a well-formed message without field numbers from
    [n] on. *)
Definition gok (n : Z) (reps : list Z) (s : grec) (o : gop) : Prop :=
  match o with
  | GSet f T v =>
      0 <= f < n /\ ~ In f reps /\ in_type T v /\
      match last (s f) with
      | None => True
      | Some (w, b) => wire_type w = ptype_wire_type T /\ b = true
      end
  | GAppend f x => 0 <= f < n /\ In f reps /\ Forall is_byte x
  | GReset => True
  | GDecode rs bs => wire_tags rs bs /\ Forall (fun r => r.1.1 < n) rs
  end.

Fixpoint glegal (n : Z) (reps : list Z) (s : grec) (os : list gop) : Prop :=
  match os with
  | [] => True
  | o :: os => gok n reps s o /\ glegal n reps (gstep s o) os
  end.

Definition gop_size (o : gop) : Z :=
  match o with
  | GSet _ _ v => 20 + pval_size v
  | GAppend _ x => 20 + Z.of_nat (length x)
  | GReset => 0
  | GDecode _ bs => Z.of_nat (length bs)
  end.
Definition gops_size (os : list gop) : Z := foldr (fun o n => gop_size o + n) 0 os.

Definition gspec (os : list gop) : grec := fold_left gstep os (fun _ => []).

(** * A message as bytes and positions

    A specification of the generated structs on *every* history of calls over
    *any* bytes, well-formed or not: the state is a byte string and, per field,
    the position of its value, if any - an unbounded map, no 16-bit array, no
    overflow map, no wrap-around.  It uses Spec.v, SpecScan.v and SpecFind.v and
    nothing of the model of the code. *)
From Verif Require Import Spec SpecScan SpecFind.

Record pstate := mkP { pbytes : list Z; ppos : Z -> option Z }.
Definition plen (s : pstate) : Z := Z.of_nat (length (pbytes s)).
Definition pempty : pstate := mkP [] (fun _ => None).
Definition pset (pos : Z -> option Z) (f p : Z) : Z -> option Z := fun g => if decide (g = f) then Some p else pos g.

Inductive outcome_of := Reached (s : pstate) | OBeyond | OFault | OLoops.

(** ** Mutations *)

(** How many bytes from [p] on a setter of type [T] takes to be the present value. *)
Inductive occupies (T : ptype) (bs : list Z) (p : Z) : Z -> Prop :=
| occupies_varint v n : ptype_wire_type T = 0 -> varint_at (at_pos bs p) v n -> occupies T bs p n
| occupies_fixed64 : ptype_wire_type T = 1 -> occupies T bs p 8
| occupies_fixed32 : ptype_wire_type T = 5 -> occupies T bs p 4
| occupies_bytes len n : ptype_wire_type T = 2 -> varint_at (at_pos bs p) len n -> occupies T bs p (signed64 (n + len)).

(** The record a setter writes: tag and value, canonically encoded. *)
Definition encodes (f : Z) (w : wval) (tb db : list Z) : Prop := minimal_tag_enc (f, w) tb /\ canonical_payload w db.

(** Set<F>(v), [F] of type [T] and number [f].
    No value yet: the record is added at the end.
    A value that takes as many bytes as the new one: it is overwritten (as far
    as the message goes).
    Otherwise the value is removed together with as many bytes in front of it as
    the tag *would* have, and the record is added at the end; positions behind
    what was removed move with the bytes, others do not. *)
Inductive sets (T : ptype) (f : Z) (v : pval) (s : pstate) : outcome_of -> Prop :=
| set_first tb db : encodes f (wire_of T v) tb db -> ppos s f = None ->
    sets T f v s (Reached (mkP (pbytes s ++ tb ++ db) (pset (ppos s) f (plen s + Z.of_nat (length tb)))))
| set_same p tb db : encodes f (wire_of T v) tb db -> ppos s f = Some p -> p <= plen s ->
    occupies T (pbytes s) p (Z.of_nat (length db)) ->
    sets T f v s (Reached (mkP (firstn (Z.to_nat p) (pbytes s) ++ firstn (Z.to_nat (plen s - p)) db ++
                                skipn (Z.to_nat p + length db) (pbytes s)) (ppos s)))
| set_other p k tb db b e : encodes f (wire_of T v) tb db -> ppos s f = Some p -> p <= plen s ->
    occupies T (pbytes s) p k -> k <> Z.of_nat (length db) ->
    b = p - Z.of_nat (length tb) -> e = p + k -> 0 <= b <= e -> e <= plen s ->
    sets T f v s (Reached (mkP (firstn (Z.to_nat b) (pbytes s) ++ skipn (Z.to_nat e) (pbytes s) ++ tb ++ db)
      (pset (fun g => option_map (fun q => if e <? q then q - (e - b) else q) (ppos s g)) f (plen s - (e - b) + Z.of_nat (length tb)))))
| set_stretches p k tb db b e : encodes f (wire_of T v) tb db -> ppos s f = Some p -> p <= plen s ->
    occupies T (pbytes s) p k -> k <> Z.of_nat (length db) ->
    b = p - Z.of_nat (length tb) -> e = p + k -> 0 <= e < b -> sets T f v s OBeyond
| set_faults p k tb db b e : encodes f (wire_of T v) tb db -> ppos s f = Some p -> p <= plen s ->
    occupies T (pbytes s) p k -> k <> Z.of_nat (length db) ->
    b = p - Z.of_nat (length tb) -> e = p + k -> b < 0 \/ e < 0 \/ plen s < e -> sets T f v s OFault
| set_outside p : ppos s f = Some p -> plen s < p -> sets T f v s OFault.

(** AppendTo<F>(x): the record is added at the end; the position stays that of
    the first one. *)
Inductive appends (f : Z) (x : list Z) (s : pstate) : outcome_of -> Prop :=
| append_first tb db : encodes f (WBytes x) tb db -> ppos s f = None ->
    appends f x s (Reached (mkP (pbytes s ++ tb ++ db) (pset (ppos s) f (plen s + Z.of_nat (length tb)))))
| append_more p tb db : encodes f (WBytes x) tb db -> ppos s f = Some p ->
    appends f x s (Reached (mkP (pbytes s ++ tb ++ db) (ppos s))).

(** Decode(bs), with or without an error, and Reset(bs). *)
Inductive decodes (n : Z) (reps : list Z) (bs : list Z) : outcome_of -> Prop :=
| decodes_all l : walk n bs 0 l (Z.of_nat (length bs)) ->
    decodes n reps bs (Reached (mkP bs (fun f => recorded reps f l None)))
| decodes_part l j l2 : walk n bs 0 l j -> ends_early n bs j l2 ->
    decodes n reps bs (Reached (mkP bs (fun f => recorded reps f (l ++ l2) None)))
| decodes_fails l j : walk n bs 0 l j -> fails n bs j -> decodes n reps bs OFault
| decodes_loops x l1 l2 : walk n bs 0 l1 x -> walk n bs x l2 x -> l2 <> [] -> decodes n reps bs OLoops.

Inductive resets (bs : list Z) : outcome_of -> Prop :=
| resets_empty : bs = [] -> resets bs (Reached pempty)
| resets_fails : bs <> [] -> resets bs OFault.

Inductive mutation :=
| PSet (f : Z) (T : ptype) (v : pval)
| PAppend (f : Z) (x : list Z)
| PDecode (bs : list Z)
| PReset (bs : list Z).

Definition mutates (n : Z) (reps : list Z) (s : pstate) (c : mutation) (r : outcome_of) : Prop :=
  match c with
  | PSet f T v => sets T f v s r
  | PAppend f x => appends f x s r
  | PDecode bs => decodes n reps bs r
  | PReset bs => resets bs r
  end.

(** A history ends at the first call that does not return. *)
Inductive mutates_all (n : Z) (reps : list Z) : pstate -> list mutation -> outcome_of -> Prop :=
| mutates_none s : mutates_all n reps s [] (Reached s)
| mutates_more s c s1 cs r : mutates n reps s c (Reached s1) -> mutates_all n reps s1 cs r -> mutates_all n reps s (c :: cs) r
| mutates_stops s c r cs : mutates n reps s c r -> (forall s1, r <> Reached s1) -> mutates_all n reps s (c :: cs) r.

(** The calls the types of Go and the generated accessors allow. *)
Definition mutation_ok (n : Z) (c : mutation) : Prop :=
  match c with
  | PSet f T v => 0 <= f < n /\ in_type T v
  | PAppend f x => 0 <= f < n /\ Forall is_byte x
  | PDecode bs => Forall is_byte bs
  | PReset _ => True
  end.

Definition mutation_size (c : mutation) : Z :=
  match c with
  | PSet _ _ v => 20 + pval_size v
  | PAppend _ x => 20 + Z.of_nat (length x)
  | PDecode bs => Z.of_nat (length bs)
  | PReset _ => 0
  end.
Definition mutations_size (cs : list mutation) : Z := foldr (fun c k => mutation_size c + k) 0 cs.

(** ** Queries *)

(** The getter of field [f] of type [T]. *)
Inductive gets (T : ptype) (s : pstate) (f : Z) : got -> Prop :=
| gets_default : ppos s f = None -> gets T s f (Value (default_of T))
| gets_found p g : ppos s f = Some p -> p <= plen s -> obtains T (pbytes s) p g -> gets T s f g
| gets_outside p : ppos s f = Some p -> plen s < p -> ptype_wire_type T = 0 \/ ptype_wire_type T = 2 -> gets T s f Fault
| gets_beyond p : ppos s f = Some p -> plen s < p -> ptype_wire_type T = 1 \/ ptype_wire_type T = 5 -> gets T s f Beyond.

(** The loop over the iterator of field [f]: the elements, and how it ends. *)
Inductive loops_over (s : pstate) (f : Z) : list (list Z) -> ending -> Prop :=
| loops_none : ppos s f = None -> loops_over s f [] EDone
| loops_found p xs e : ppos s f = Some p -> p <= plen s -> delivers f (at_pos (pbytes s) p) xs e -> loops_over s f xs e
| loops_outside p : ppos s f = Some p -> plen s < p -> loops_over s f [] EFault.

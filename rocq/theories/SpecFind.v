(** * How an iterator moves through an arbitrary byte string

    An iterator over a repeated field holds the bytes [b] behind the tag of an
    element, up to the end of the message.  This specifies, for every [b], what
    a call of Next delivers and where the following element is looked for.  It
    uses Spec.v and SpecScan.v and nothing of the model of the code. *)
From Verif Require Import Spec SpecScan.

(** The element at the start of [b]: its bytes, and the position behind it. *)
Inductive element (b : list Z) : list Z -> Z -> Prop :=
| element_is len n hi : varint_at b len n -> hi = signed64 (n + len) -> 0 <= n <= hi -> hi <= Z.of_nat (length b) ->
    element b (firstn (Z.to_nat (hi - n)) (at_pos b n)) hi.

(** The element claims to reach beyond the end of the bytes. *)
Definition element_beyond (b : list Z) : Prop :=
  exists len n hi, varint_at b len n /\ hi = signed64 (n + len) /\ 0 <= n <= hi /\ Z.of_nat (length b) < hi.

(** Its length does not fit 64 bits, or not 63 bits. *)
Definition element_faulty (b : list Z) : Prop :=
  exists len n, varint_at b len n /\ (n < 0 \/ signed64 (n + len) < n).

(** A tag is read at position [i] (0, without moving, if the bytes end within it);
    its data is at [p]. *)
Definition tag_or_end_at (b : list Z) (i tag p : Z) : Prop :=
  0 <= i < Z.of_nat (length b) /\ exists n, varint_at (at_pos b i) tag n /\ p = i + n.

(** The record at [i], not of the field looked for, is skipped. *)
Definition skips (field : Z) (b : list Z) (i j : Z) : Prop :=
  exists tag p s, tag_or_end_at b i tag p /\ 0 <= p /\ tag / 8 <> field /\
    (moves (tag mod 8) (at_pos b p) s \/ (tag mod 8 = 0 \/ tag mod 8 = 2) /\ cut_varint (at_pos b p) /\ s = 0) /\
    j = signed64 (p + s).

(** [k] records are skipped from [i] to [j]. *)
Inductive skip_many (field : Z) (b : list Z) : Z -> nat -> Z -> Prop :=
| skip_none i : skip_many field b i 0 i
| skip_more i j n k : skips field b i j -> skip_many field b j n k -> skip_many field b i (S n) k.

(** Where the search ends. *)
Definition finds (field : Z) (b : list Z) (i p : Z) : Prop :=
  exists tag, tag_or_end_at b i tag p /\ 0 <= p /\ tag / 8 = field.
Definition finds_none (b : list Z) (i : Z) : Prop := Z.of_nat (length b) <= i.
Inductive search_fails (field : Z) (b : list Z) (i : Z) : Prop :=
| search_before : i < 0 -> search_fails field b i
| search_tag_before tag p : tag_or_end_at b i tag p -> p < 0 -> search_fails field b i
| search_type tag p : tag_or_end_at b i tag p -> tag / 8 <> field ->
    tag mod 8 <> 0 -> tag mod 8 <> 1 -> tag mod 8 <> 2 -> tag mod 8 <> 5 -> search_fails field b i.

(** One call of Next: the element and the bytes at the next one, or the element
    and the end; or no element. *)
Inductive next_result := More (x rest : list Z) | Last (x : list Z) | NBeyond | NFault | NLoops.
Inductive next (field : Z) (b : list Z) : next_result -> Prop :=
| next_more x hi k i p : element b x hi -> skip_many field b hi k i -> finds field b i p -> next field b (More x (at_pos b p))
| next_last x hi k i : element b x hi -> skip_many field b hi k i -> finds_none b i -> next field b (Last x)
| next_beyond : element_beyond b -> next field b NBeyond
| next_faulty : element_faulty b -> next field b NFault
| next_fails x hi k i : element b x hi -> skip_many field b hi k i -> search_fails field b i -> next field b NFault
| next_loops x hi k i k2 : element b x hi -> skip_many field b hi k i -> skip_many field b i (S k2) i -> next field b NLoops.

(** All calls of Next: the elements delivered, and how it ends. *)
Inductive ending := EDone | EBeyond | EFault | ELoops.
Inductive delivers (field : Z) : list Z -> list (list Z) -> ending -> Prop :=
| delivers_more b x rest xs e : next field b (More x rest) -> delivers field rest xs e -> delivers field b (x :: xs) e
| delivers_last b x : next field b (Last x) -> delivers field b [x] EDone
| delivers_beyond b : next field b NBeyond -> delivers field b [] EBeyond
| delivers_fault b : next field b NFault -> delivers field b [] EFault
| delivers_loops b : next field b NLoops -> delivers field b [] ELoops.

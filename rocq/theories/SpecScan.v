(** * How a reader moves through an arbitrary byte string

    A specification of Decode on *every* input, well-formed or not, in terms of
    positions in the byte string.  It uses the varints of Spec.v and nothing of
    the model of the code.  On a well-formed message the reader only moves
    forward from record to record; on others it can move backward: a varint
    that does not fit 64 bits moves it back by its own length. *)
From Verif Require Import Spec.

(** Reading a varint at the start of [b]: its value, and how far the reader
    moves (backwards, and the value is 0, if it does not fit 64 bits). *)
Inductive reads_varint : list Z -> Z -> Z -> Prop :=
| reads_fits v vb r : is_varint v vb -> reads_varint (vb ++ r) v (Z.of_nat (length vb))
| reads_overlong init lst r :
    Forall (fun b => 128 <= b < 256) init -> 0 <= lst < 128 ->
    (9 < Z.of_nat (length init) \/ Z.of_nat (length init) = 9 /\ 1 < lst) ->
    reads_varint (init ++ lst :: r) 0 (- (Z.of_nat (length init) + 1)).

(** The bytes end within a varint (or before it). *)
Definition cut_varint (b : list Z) : Prop := Forall (fun x => 128 <= x < 256) b.

(** The signed 64-bit number congruent to [z]. *)
Definition signed64 (z : Z) : Z := (z + 2 ^ 63) mod 2 ^ 64 - 2 ^ 63.

(** How far the data of a record of wire type [t], starting at [b], moves the reader. *)
Inductive moves : Z -> list Z -> Z -> Prop :=
| moves_varint b v n : reads_varint b v n -> moves 0 b n
| moves_fixed64 b : moves 1 b 8
| moves_bytes b len n : reads_varint b len n -> moves 2 b (n + len)
| moves_fixed32 b : moves 5 b 4.

Notation at_pos bs i := (skipn (Z.to_nat i) bs).

(** A tag is read at position [i], and there is at least one byte behind it, at [p]. *)
Definition tag_at (bs : list Z) (i tag p : Z) : Prop :=
  0 <= i < Z.of_nat (length bs) /\
  exists n, reads_varint (at_pos bs i) tag n /\ p = i + n /\ p < Z.of_nat (length bs).

(** From [i] the reader passes a record of field [f] whose data is at [p], and
    arrives at [j]. *)
Definition hop (bs : list Z) (i f p j : Z) : Prop :=
  exists tag s, tag_at bs i tag p /\ 0 <= p /\ f = tag / 8 /\
    moves (tag mod 8) (at_pos bs p) s /\ signed64 s <> 0 /\ j = signed64 (p + s).

(** From [i] over the records [l] (field, position of the data), all of fields
    below [n], to [j]. *)
Inductive walk (n : Z) (bs : list Z) : Z -> list (Z * Z) -> Z -> Prop :=
| walk_nil i : walk n bs i [] i
| walk_cons i f p j l k : hop bs i f p j -> f < n -> walk n bs j l k -> walk n bs i ((f, p) :: l) k.

(** At [i] the input ends too early; [l]: the record begun there, if its tag was read. *)
Inductive ends_early (n : Z) (bs : list Z) (i : Z) : list (Z * Z) -> Prop :=
| early_beyond : Z.of_nat (length bs) < i -> ends_early n bs i []
| early_tag : 0 <= i < Z.of_nat (length bs) -> cut_varint (at_pos bs i) -> ends_early n bs i []
| early_behind tag k : 0 <= i < Z.of_nat (length bs) -> reads_varint (at_pos bs i) tag k ->
    Z.of_nat (length bs) <= i + k -> ends_early n bs i []
| early_data tag p : tag_at bs i tag p -> 0 <= p -> tag / 8 < n -> tag mod 8 = 0 \/ tag mod 8 = 2 ->
    cut_varint (at_pos bs p) -> ends_early n bs i [(tag / 8, p)]
| early_stuck tag p s : tag_at bs i tag p -> 0 <= p -> tag / 8 < n -> moves (tag mod 8) (at_pos bs p) s ->
    signed64 s = 0 -> ends_early n bs i [(tag / 8, p)].

(** At [i] the reader fails: it is before the first byte, or moves there, or
    the field number or the wire type is not supported. *)
Inductive fails (n : Z) (bs : list Z) (i : Z) : Prop :=
| fails_before : i < 0 -> fails n bs i
| fails_tag_before tag p : tag_at bs i tag p -> p < 0 -> fails n bs i
| fails_field tag p : tag_at bs i tag p -> n <= tag / 8 -> fails n bs i
| fails_type tag p : tag_at bs i tag p -> tag mod 8 <> 0 -> tag mod 8 <> 1 -> tag mod 8 <> 2 -> tag mod 8 <> 5 ->
    fails n bs i.

(** The position recorded for field [f] after passing [l]: that of its first
    record if [f] is repeated, of its last one otherwise.  0, where no data of
    a record can be in a well-formed message, counts as none. *)
Fixpoint recorded (reps : list Z) (f : Z) (l : list (Z * Z)) (cur : option Z) : option Z :=
  match l with
  | [] => cur
  | (g, p) :: l =>
    recorded reps f l
      (if decide (g = f) then
         if decide (f ∈ reps) then match cur with Some _ => cur | None => if decide (p = 0) then None else Some p end
         else if decide (p = 0) then None else Some p
       else cur)
  end.

(** ** What an accessor obtains at a recorded position *)

(** [Beyond]: it asks for bytes behind the end of the message, which Go refuses
    with a panic unless the slice has the capacity; [Fault]: a panic. *)
Inductive got := Value (v : pval) | Beyond | Fault.

(** Like [reads_varint]; a varint cut off by the end of the message counts as 0
    and does not move the reader. *)
Definition varint_at (b : list Z) (v n : Z) : Prop := reads_varint b v n \/ (cut_varint b /\ v = 0 /\ n = 0).

Definition typed_varint (T : ptype) (v : Z) : pval :=
  match T with
  | PSint32 => VNum (to_signed 32 (unzigzag v))
  | _ => value_of T (WVarint v)
  end.

Inductive obtains (T : ptype) (bs : list Z) (p : Z) : got -> Prop :=
| obtains_varint v n : ptype_wire_type T = 0 -> varint_at (at_pos bs p) v n -> obtains T bs p (Value (typed_varint T v))
| obtains_fixed64 : ptype_wire_type T = 1 -> p + 8 <= Z.of_nat (length bs) ->
    obtains T bs p (Value (value_of T (WFixed64 (base256 (firstn 8 (at_pos bs p))))))
| obtains_fixed32 : ptype_wire_type T = 5 -> p + 4 <= Z.of_nat (length bs) ->
    obtains T bs p (Value (value_of T (WFixed32 (base256 (firstn 4 (at_pos bs p))))))
| beyond_fixed64 : ptype_wire_type T = 1 -> Z.of_nat (length bs) < p + 8 -> obtains T bs p Beyond
| beyond_fixed32 : ptype_wire_type T = 5 -> Z.of_nat (length bs) < p + 4 -> obtains T bs p Beyond
| obtains_bytes len n lo hi : ptype_wire_type T = 2 -> varint_at (at_pos bs p) len n ->
    lo = (p + n) mod 2 ^ 64 -> hi = (lo + len) mod 2 ^ 64 -> lo <= hi <= Z.of_nat (length bs) ->
    obtains T bs p (Value (value_of T (WBytes (firstn (Z.to_nat (hi - lo)) (at_pos bs lo)))))
| beyond_bytes len n lo hi : ptype_wire_type T = 2 -> varint_at (at_pos bs p) len n ->
    lo = (p + n) mod 2 ^ 64 -> hi = (lo + len) mod 2 ^ 64 -> lo <= hi -> Z.of_nat (length bs) < hi ->
    obtains T bs p Beyond
| fault_bytes len n lo hi : ptype_wire_type T = 2 -> varint_at (at_pos bs p) len n ->
    lo = (p + n) mod 2 ^ 64 -> hi = (lo + len) mod 2 ^ 64 -> hi < lo ->
    obtains T bs p Fault.

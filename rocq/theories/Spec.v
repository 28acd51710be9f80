(** * Specification: the protobuf wire format and typed field values.

    Written from the protobuf encoding documentation
    (developers.google.com/protocol-buffers/docs/encoding), without using any
    definition of the model of zeropb. *)
From stdpp Require Export base numbers list.
From Coq Require Export ZArith Lia.
Export ListNotations.
#[global] Open Scope Z_scope.

Definition is_byte (b : Z) : Prop := 0 <= b < 256.

(** ** Varints *)

(** The number denoted by little-endian groups of seven bits. *)
Fixpoint base128 (bs : list Z) : Z :=
  match bs with
  | [] => 0
  | b :: bs => b mod 128 + 128 * base128 bs
  end.

(** [bs] is an encoding of the 64-bit number [v]: at most ten bytes, all but the
    last with the continuation bit.  Non-minimal encodings are legal. *)
Definition is_varint (v : Z) (bs : list Z) : Prop :=
  exists init last,
    bs = init ++ [last] /\
    Forall (fun b => 128 <= b < 256) init /\
    0 <= last < 128 /\
    (length bs <= 10)%nat /\
    base128 bs = v /\ v < 2 ^ 64.

(** The encoding a canonical encoder produces. *)
Definition is_minimal_varint (v : Z) (bs : list Z) : Prop :=
  is_varint v bs /\ forall bs', is_varint v bs' -> (length bs <= length bs')%nat.

(** ** Fixed width numbers *)

Fixpoint base256 (bs : list Z) : Z :=
  match bs with
  | [] => 0
  | b :: bs => b + 256 * base256 bs
  end.

Definition is_fixed (n : nat) (v : Z) (bs : list Z) : Prop :=
  length bs = n /\ Forall is_byte bs /\ base256 bs = v.

(** ** Records and messages *)

(** The value of a record, by wire type. *)
Inductive wval : Type :=
| WVarint (v : Z)          (* wire type 0 *)
| WFixed64 (v : Z)         (* wire type 1 *)
| WBytes (bs : list Z)     (* wire type 2 *)
| WFixed32 (v : Z).        (* wire type 5 *)

Definition wire_type (w : wval) : Z :=
  match w with WVarint _ => 0 | WFixed64 _ => 1 | WBytes _ => 2 | WFixed32 _ => 5 end.

(** [pb] is an encoding of the value [w]. *)
Definition payload_enc (w : wval) (pb : list Z) : Prop :=
  match w with
  | WVarint v => is_varint v pb
  | WFixed64 v => is_fixed 8 v pb
  | WFixed32 v => is_fixed 4 v pb
  | WBytes bs =>
      exists lb, pb = lb ++ bs /\ is_varint (Z.of_nat (length bs)) lb /\ Forall is_byte bs
  end.

(** The encoding a canonical encoder produces for [w]. *)
Definition canonical_payload (w : wval) (pb : list Z) : Prop :=
  match w with
  | WVarint v => is_minimal_varint v pb
  | WFixed64 v => is_fixed 8 v pb
  | WFixed32 v => is_fixed 4 v pb
  | WBytes bs =>
      exists lb, pb = lb ++ bs /\ is_minimal_varint (Z.of_nat (length bs)) lb /\ Forall is_byte bs
  end.

(** A record is a field number and a value. *)
Notation record := (Z * wval)%type.

(** [tb] is an encoding of the tag of a record. *)
Definition tag_enc (r : record) (tb : list Z) : Prop :=
  0 <= r.1 /\ is_varint (8 * r.1 + wire_type r.2) tb.

Definition minimal_tag_enc (r : record) (tb : list Z) : Prop :=
  0 <= r.1 /\ is_minimal_varint (8 * r.1 + wire_type r.2) tb.

Definition record_enc (r : record) (bs : list Z) : Prop :=
  exists tb pb, bs = tb ++ pb /\ tag_enc r tb /\ payload_enc r.2 pb.

(** [wire rs bs]: [bs] is an encoding of the message with records [rs], in
    this order. *)
Inductive wire : list record -> list Z -> Prop :=
| wire_nil : wire [] []
| wire_cons r rs bs1 bs2 :
    record_enc r bs1 -> wire rs bs2 -> wire (r :: rs) (bs1 ++ bs2).

(** The same with minimally encoded tags (the values may still use
    non-minimal varints). *)
Definition record_enc_min (r : record) (bs : list Z) : Prop :=
  exists tb pb, bs = tb ++ pb /\ minimal_tag_enc r tb /\ payload_enc r.2 pb.

Inductive wire_min : list record -> list Z -> Prop :=
| wire_min_nil : wire_min [] []
| wire_min_cons r rs bs1 bs2 :
    record_enc_min r bs1 -> wire_min rs bs2 -> wire_min (r :: rs) (bs1 ++ bs2).

(** The occurrences of field [f], in wire order. *)
Fixpoint occ (f : Z) (rs : list record) : list wval :=
  match rs with
  | [] => []
  | (g, w) :: rs => if Z.eqb g f then w :: occ f rs else occ f rs
  end.

(** ** Malformed input that is not merely truncated *)

(** A terminated varint that does not fit 64 bits. *)
Definition overlong (buf : list Z) : Prop :=
  exists init lst r, buf = init ++ lst :: r /\
    Forall (fun b => 128 <= b < 256) init /\ 0 <= lst < 128 /\
    (9 < Z.of_nat (length init) \/ (Z.of_nat (length init) = 9 /\ 1 < lst)).

(** [rest], the unparsed part of a message of [total] bytes, starts with a
    record one of whose varints is overlong, or whose length prefix would make
    the message longer than any memory (2^63 bytes). *)
Definition starts_malformed (total : Z) (rest : list Z) : Prop :=
  overlong rest \/
  exists tag tb r, rest = tb ++ r /\ is_varint tag tb /\
    ((tag mod 8 = 0 /\ overlong r) \/
     (tag mod 8 = 2 /\
      (overlong r \/
       exists len lb r', r = lb ++ r' /\ is_varint len lb /\ 2 ^ 63 <= total + len))).

Definition malformed (buf : list Z) : Prop :=
  exists rs pre rest, buf = pre ++ rest /\ wire rs pre /\
    starts_malformed (Z.of_nat (length buf)) rest.

(** The message starts with well-formed records followed by a tag (and at least
    one more byte) whose field number is not below [n], or whose wire type is
    none of varint, fixed64, bytes, fixed32 (3 and 4 are the deprecated groups,
    6 and 7 are not assigned). *)
Definition unsupported (n : Z) (buf : list Z) : Prop :=
  exists rs pre tag tb r, buf = pre ++ tb ++ r /\ wire rs pre /\ is_varint tag tb /\ r <> [] /\
    (n <= tag / 8 \/ ~ (tag mod 8 = 0 \/ tag mod 8 = 1 \/ tag mod 8 = 2 \/ tag mod 8 = 5)).

(** ** Typed values *)

Inductive ptype : Type :=
| PBool | PInt32 | PInt64 | PUint32 | PUint64 | PSint32 | PSint64
| PFixed32 | PFixed64 | PSfixed32 | PSfixed64 | PFloat | PDouble
| PString | PBytes.

(** Values of the Go types the accessors use.  Floats are given by their IEEE
    754 bit pattern. [VBytes None] is a nil slice. *)
Inductive pval : Type :=
| VBool (b : bool)
| VNum (z : Z)
| VString (bs : list Z)
| VBytes (bs : option (list Z)).

(** The values of each type. *)
Definition in_type (T : ptype) (v : pval) : Prop :=
  match T, v with
  | PBool, VBool _ => True
  | (PInt32 | PSint32 | PSfixed32), VNum z => - 2 ^ 31 <= z < 2 ^ 31
  | (PInt64 | PSint64 | PSfixed64), VNum z => - 2 ^ 63 <= z < 2 ^ 63
  | (PUint32 | PFixed32 | PFloat), VNum z => 0 <= z < 2 ^ 32
  | (PUint64 | PFixed64 | PDouble), VNum z => 0 <= z < 2 ^ 64
  | PString, VString bs => Forall is_byte bs
  | PBytes, VBytes (Some bs) => Forall is_byte bs
  | PBytes, VBytes None => True
  | _, _ => False
  end.

Definition ptype_wire_type (T : ptype) : Z :=
  match T with
  | PBool | PInt32 | PInt64 | PUint32 | PUint64 | PSint32 | PSint64 => 0
  | PFixed64 | PSfixed64 | PDouble => 1
  | PString | PBytes => 2
  | PFixed32 | PSfixed32 | PFloat => 5
  end.

(** Two's complement. *)
Definition to_unsigned (bits z : Z) : Z := z mod 2 ^ bits.
Definition to_signed (bits z : Z) : Z :=
  let r := z mod 2 ^ bits in if r <? 2 ^ (bits - 1) then r else r - 2 ^ bits.

(** Zig-zag: 0, -1, 1, -2, 2, ... are 0, 1, 2, 3, 4, ... *)
Definition zigzag (z : Z) : Z := if z <? 0 then - 2 * z - 1 else 2 * z.
Definition unzigzag (n : Z) : Z := if Z.even n then n / 2 else - (n / 2) - 1.

(** The wire value of a typed value. *)
Definition wire_of (T : ptype) (v : pval) : wval :=
  match T, v with
  | PBool, VBool b => WVarint (if b then 1 else 0)
  | (PInt32 | PInt64), VNum z => WVarint (to_unsigned 64 z)
  | (PUint32 | PUint64), VNum z => WVarint z
  | (PSint32 | PSint64), VNum z => WVarint (zigzag z)
  | (PFixed32 | PFloat), VNum z => WFixed32 z
  | PSfixed32, VNum z => WFixed32 (to_unsigned 32 z)
  | (PFixed64 | PDouble), VNum z => WFixed64 z
  | PSfixed64, VNum z => WFixed64 (to_unsigned 64 z)
  | PString, VString bs => WBytes bs
  | PBytes, VBytes o => WBytes (match o with Some bs => bs | None => [] end)
  | _, _ => WBytes []
  end.

(** The typed value of a wire value of the right wire type, as protobuf
    prescribes: 32-bit types keep the low 32 bits. *)
Definition value_of (T : ptype) (w : wval) : pval :=
  match T, w with
  | PBool, WVarint v => VBool (negb (v =? 0))
  | PInt32, WVarint v => VNum (to_signed 32 v)
  | PInt64, WVarint v => VNum (to_signed 64 v)
  | PUint32, WVarint v => VNum (to_unsigned 32 v)
  | PUint64, WVarint v => VNum v
  | PSint32, WVarint v => VNum (unzigzag (to_unsigned 32 v))
  | PSint64, WVarint v => VNum (unzigzag v)
  | (PFixed32 | PFloat), WFixed32 v => VNum v
  | PSfixed32, WFixed32 v => VNum (to_signed 32 v)
  | (PFixed64 | PDouble), WFixed64 v => VNum v
  | PSfixed64, WFixed64 v => VNum (to_signed 64 v)
  | PString, WBytes bs => VString bs
  | PBytes, WBytes bs => VBytes (Some bs)
  | _, _ => VNum 0
  end.

(** The value of an unset field. *)
Definition default_of (T : ptype) : pval :=
  match T with
  | PBool => VBool false
  | PString => VString []
  | PBytes => VBytes None
  | _ => VNum 0
  end.

(** The value of a non-repeated field given its occurrences: the last wins. *)
Definition read_single (T : ptype) (ws : list wval) : pval :=
  match last ws with
  | None => default_of T
  | Some w => value_of T w
  end.

(** The elements of a repeated bytes-like (message) field. *)
Definition bytes_of (w : wval) : list Z := match w with WBytes bs => bs | _ => [] end.
Definition read_repeated (ws : list wval) : list (list Z) := map bytes_of ws.

(** What reading a value back gives: the value itself, except that a nil slice
    is stored as an empty one. *)
Definition stored (v : pval) : pval :=
  match v with VBytes None => VBytes (Some []) | _ => v end.

(** ** Schemas, operations, and the record a history of operations describes *)

(** A field with generated accessors is a non-repeated one of some type (a
    sub-message field is a [PBytes] field holding the child's bytes) or a
    repeated message field. *)
Inductive kind := KSingle (T : ptype) | KRepeated.
Definition schema := Z -> option kind.

(** A wire value of the declared type: right wire type and, for sint32, a varint
    of at most 32 bits, as every protobuf encoder produces. *)
Definition conforms (T : ptype) (w : wval) : Prop :=
  wire_type w = ptype_wire_type T /\
  match T, w with PSint32, WVarint v => v < 2 ^ 32 | _, _ => True end.

(** A record whose value is of the type its field is declared with; records of
    undeclared fields are arbitrary. *)
Definition well_typed (sc : schema) (r : record) : Prop :=
  match sc r.1 with
  | Some (KSingle T) => conforms T r.2
  | Some KRepeated => wire_type r.2 = 2
  | None => True
  end.

Inductive op :=
| OSet (f : Z) (v : pval)                   (* Set<F>(v) *)
| OAppend (f : Z) (x : list Z)              (* AppendTo<F>(m) with Encode(m) = x *)
| OReset                                    (* Reset(nil) *)
| ODecode (rs : list record) (bs : list Z). (* Decode(bs), bs an encoding of rs *)

(** The operations a client may perform on a message with [n] slots. *)
Definition op_ok (n : Z) (sc : schema) (o : op) : Prop :=
  match o with
  | OSet f v => exists T, sc f = Some (KSingle T) /\ in_type T v
  | OAppend f x => sc f = Some KRepeated /\ Forall is_byte x
  | OReset => True
  | ODecode rs bs => wire_min rs bs /\ Forall (fun r => r.1 < n /\ well_typed sc r) rs
  end.

(** An upper bound on the bytes an operation adds. *)
Definition pval_size (v : pval) : Z :=
  match v with
  | VString bs | VBytes (Some bs) => Z.of_nat (length bs)
  | _ => 0
  end.
Definition op_size (o : op) : Z :=
  match o with
  | OSet _ v => 20 + pval_size v
  | OAppend _ x => 20 + Z.of_nat (length x)
  | OReset => 0
  | ODecode _ bs => Z.of_nat (length bs)
  end.
Definition ops_size (os : list op) : Z := foldr (fun o n => op_size o + n) 0 os.

(** The plain record: for each field the list of its values, at most one for a
    non-repeated field. *)
Definition arec := Z -> list wval.

Definition last_only (ws : list wval) : list wval :=
  match last ws with Some w => [w] | None => [] end.

Definition spec_step (sc : schema) (s : arec) (o : op) : arec :=
  match o with
  | OSet f v => fun g =>
      if g =? f then
        match sc f with Some (KSingle T) => [wire_of T v] | _ => s g end
      else s g
  | OAppend f x => fun g => if g =? f then s g ++ [WBytes x] else s g
  | OReset => fun _ => []
  | ODecode rs _ => fun g =>
      match sc g with
      | Some (KSingle _) => last_only (occ g rs)
      | _ => occ g rs
      end
  end.

Definition spec_run (sc : schema) (os : list op) : arec :=
  fold_left (spec_step sc) os (fun _ => []).

(** At most one record per non-repeated field. *)
Definition sparse (sc : schema) (rs : list record) : Prop :=
  forall f T, sc f = Some (KSingle T) -> (length (occ f rs) <= 1)%nat.

(** A history that decodes only such messages. *)
Definition op_sparse (sc : schema) (o : op) : Prop :=
  match o with ODecode rs _ => sparse sc rs | _ => True end.

(** The operations that change one field. *)
Definition is_mutation (o : op) : Prop := match o with OSet _ _ | OAppend _ _ => True | _ => False end.

(** ** Byte-exact decomposition of a message into records *)
Definition wire_parts (ps : list (record * list Z)) (bs : list Z) : Prop :=
  Forall (fun p => record_enc p.1 p.2) ps /\ bs = concat (map snd ps).

(** The parts belonging to fields the schema does not declare. *)
Definition undeclared (sc : schema) (ps : list (record * list Z)) : list (record * list Z) :=
  filter (fun p => sc p.1.1 = None) ps.

(** ** The finite map an [Offsets] stands for; 0 means unset *)
Inductive off_op := OffSet (f x : Z) | OffClear.
Definition off_step (s : Z -> Z) (o : off_op) : Z -> Z :=
  match o with
  | OffSet f x => fun g => if g =? f then x else s g
  | OffClear => fun _ => 0
  end.
Definition off_spec (ops : list off_op) : Z -> Z := fold_left off_step ops (fun _ => 0).
Definition off_ok (n : Z) (o : off_op) : Prop :=
  match o with OffSet f x => 0 <= f < n /\ 0 <= x < 2 ^ 64 | OffClear => True end.

(** Where the payloads of the length-delimited records of field [f] lie in the
    message, with their contents, in wire order: a payload ends where its record
    ends. *)
Fixpoint payloads (f base : Z) (ps : list (record * list Z)) : list (Z * list Z) :=
  match ps with
  | [] => []
  | (r, b) :: ps =>
    let fin := base + Z.of_nat (length b) in
    let rest := payloads f fin ps in
    if r.1 =? f then (fin - Z.of_nat (length (bytes_of r.2)), bytes_of r.2) :: rest else rest
  end.

(** The last record of field [f] in the message [m] is length-delimited: tag [tb],
    length prefix [lb], payload [x]; [b1] and [b2] are the records before and
    after it. *)
Definition last_bytes_record (f : Z) (m b1 tb lb x b2 : list Z) : Prop :=
  m = b1 ++ tb ++ lb ++ x ++ b2 /\
  (exists rs1, wire rs1 b1) /\
  tag_enc (f, WBytes x) tb /\ is_varint (Z.of_nat (length x)) lb /\ Forall is_byte x /\
  (exists rs2, wire rs2 b2 /\ occ f rs2 = []).

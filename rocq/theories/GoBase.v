(** * The part of Go's semantics the code relies on.

    Simplification (whole model): [int] is 64 bits wide, as on amd64/arm64.
    Bytes and machine integers are [Z]; wrap-around is explicit. *)
From stdpp Require Export base numbers gmap list.
From Coq Require Export ZArith Lia.
Export ListNotations.
#[global] Open Scope Z_scope.

(** Outcome of a Go expression.
    - [Panic]: a run-time panic (index/slice out of range, explicit [panic]).
    - [PastLen]: a slice expression [s[lo:hi]] with [len(s) < hi]: Go panics if
      [cap(s) < hi] and otherwise exposes the bytes stored between length and
      capacity.  The value-level model does not know capacities, so it reports
      this third outcome; the heap-level model (Heap.v) resolves it.
    - [OutOfFuel]: the loop did not finish within the given number of
      iterations; a Go loop diverges iff the outcome is [OutOfFuel] for every
      fuel. *)
Inductive res (A : Type) : Type :=
| Ok (a : A)
| Panic
| PastLen
| OutOfFuel.
Arguments Ok {A} a.
Arguments Panic {A}.
Arguments PastLen {A}.
Arguments OutOfFuel {A}.

Definition rbind {A B} (m : res A) (k : A -> res B) : res B :=
  match m with
  | Ok a => k a
  | Panic => Panic
  | PastLen => PastLen
  | OutOfFuel => OutOfFuel
  end.

Notation "'let*' x ':=' m 'in' k" := (rbind m (fun x => k))
  (at level 200, x pattern, m at level 100, k at level 200, right associativity).

(** ** Machine integer conversions (Go spec, "Conversions between numeric
    types"): truncation to the width of the target type. *)
Definition u8  (z : Z) : Z := z mod 256.
Definition u16 (z : Z) : Z := z mod 65536.
Definition u32 (z : Z) : Z := z mod 4294967296.
Definition u64 (z : Z) : Z := z mod 18446744073709551616.
Definition i32 (z : Z) : Z := (z + 2147483648) mod 4294967296 - 2147483648.
Definition i64 (z : Z) : Z :=
  (z + 9223372036854775808) mod 18446744073709551616 - 9223372036854775808.

(** [len(s)] *)
Definition zlen {A} (l : list A) : Z := Z.of_nat (length l).

(** ** Slice expressions on byte values *)

(** [s[i:]]: panics unless [0 <= i <= len(s)]. *)
Definition slice_from (s : list Z) (i : Z) : res (list Z) :=
  if (0 <=? i) && (i <=? zlen s) then Ok (drop (Z.to_nat i) s) else Panic.

(** [s[lo:hi]]: panics unless [0 <= lo <= hi <= cap(s)]. *)
Definition slice_range (s : list Z) (lo hi : Z) : res (list Z) :=
  if (0 <=? lo) && (lo <=? hi) then
    if hi <=? zlen s then Ok (take (Z.to_nat (hi - lo)) (drop (Z.to_nat lo) s))
    else PastLen
  else Panic.

(** [s[:hi]] *)
Definition slice_to (s : list Z) (hi : Z) : res (list Z) := slice_range s 0 hi.

(** [copy(s[i:], src)]: the bytes of [s] afterwards and the number of bytes
    copied, which is [min(len(s)-i, len(src))]. *)
Definition copy_at (s : list Z) (i : Z) (src : list Z) : res (list Z * Z) :=
  if (0 <=? i) && (i <=? zlen s) then
    let n := Z.min (zlen s - i) (zlen src) in
    Ok (take (Z.to_nat i) s ++ take (Z.to_nat n) src ++ drop (Z.to_nat (i + n)) s, n)
  else Panic.

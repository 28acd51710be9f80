(** * Programs that recover from panics

    A client may recover from a panic (net/http does for every handler) and go on
    using its structs, slices and iterators.  On top of the machine of SpecShare.v,
    this says what a panicking action leaves behind.  Like SpecShare.v it uses
    nothing of the model of the code except the record [slice]. *)
From Verif Require Import Spec SpecScan SpecFind SpecPos SpecMem.
From Verif Require Import Heap SpecShare.

(** A setter that panics leaves everything as it was - unless it wanted to stretch
    the message (C74) and there was no room: it notices only after having moved the
    part of the message behind the value. *)
Inductive set_wrecks (A : arrays) (o : obj) (f : Z) (T : ptype) (v : pval) : arrays -> Prop :=
| wrecks_nothing : sets T f v (state_of A o) OFault -> set_wrecks A o f T v A
| wrecks_bytes p k tb lb x b e : let s := state_of A o in
    sets T f v s OBeyond -> pieces f (wire_of T v) tb lb x -> ppos s f = Some p -> p <= plen s ->
    occupies T (pbytes s) p k -> b = p - Z.of_nat (length tb) -> e = p + k -> 0 <= e < b ->
    Z.of_nat (length (cells A (o_buf o))) < plen s + (b - e) ->
    set_wrecks A o f T v (rewritten A (o_buf o)
      (put (cells A (o_buf o)) (Z.to_nat b) (firstn (Z.to_nat (plen s - b)) (skipn (Z.to_nat e) (pbytes s))))).

(** Where Decode panics; [l]: the record whose position it has stored by then. *)
Inductive fails_with (n : Z) (bs : list Z) (i : Z) : list (Z * Z) -> Prop :=
| fails_here : i < 0 -> fails_with n bs i []
| fails_unknown tag p : tag_at bs i tag p -> n <= tag / 8 -> fails_with n bs i []
| fails_wire_type tag p : tag_at bs i tag p -> 0 <= p -> tag / 8 < n ->
    tag mod 8 <> 0 -> tag mod 8 <> 1 -> tag mod 8 <> 2 -> tag mod 8 <> 5 -> fails_with n bs i [(tag / 8, p)].

(** The actions whose panics leave everything as it was. *)
Definition harmless (a : act) : bool :=
  match a with AWrite _ _ _ | ACut _ _ _ | AGet _ _ _ | AReset _ _ | AIter _ _ | ANext _ _ => true | _ => false end.

(** What a panicking action leaves behind.  [None]: not said; this is a Decode that,
    after an overlong varint, has stored a position before the first byte for the
    field number 0. *)
Inductive leaves_behind (S : shared) : act -> option shared -> Prop :=
| behind_harmless a : harmless a = true -> leaves_behind S a (Some S)
| behind_set i f T v o A' : sh_objs S !! i = Some o -> set_wrecks (sh_arr S) o f T v A' ->
    leaves_behind S (ASet i f T v) (Some (mkShared A' (sh_objs S) (sh_held S)))
| behind_slice i f k o a A' : sh_objs S !! i = Some o -> sh_held S !! k = Some a ->
    set_wrecks (sh_arr S) o f PBytes (VBytes (Some (bytes_in (sh_arr S) a))) A' ->
    leaves_behind S (ASetSlice i f k) (Some (mkShared A' (sh_objs S) (sh_held S)))
| behind_decode i k o a l j l2 : sh_objs S !! i = Some o -> sh_held S !! k = Some a ->
    walk (Z.of_nat (o_n o)) (bytes_in (sh_arr S) a) 0 l j -> fails_with (Z.of_nat (o_n o)) (bytes_in (sh_arr S) a) j l2 ->
    leaves_behind S (ADecode i k) (Some (set_obj S i (sh_arr S) (become o a (fun f => recorded (o_reps o) f (l ++ l2) None))))
| behind_zero i k o a l j tag p : sh_objs S !! i = Some o -> sh_held S !! k = Some a ->
    walk (Z.of_nat (o_n o)) (bytes_in (sh_arr S) a) 0 l j -> tag_at (bytes_in (sh_arr S) a) j tag p -> p < 0 -> tag / 8 < Z.of_nat (o_n o) ->
    leaves_behind S (ADecode i k) None.

(** Programs that recover from every panic: what is seen ([None]: a panic), and how
    they end. *)
Inductive recovers : shared -> list act -> list (option seen) -> outcome -> Prop :=
| recovers_done S : recovers S [] [] (Goes S SawNothing)
| recovers_step c S a S' o acts l r : sensible S a -> does c S a (Goes S' o) -> modest S' -> recovers S' acts l r ->
    recovers S (a :: acts) (Some o :: l) r
| recovers_panic c S a S' acts l r : sensible S a -> does c S a Panics -> leaves_behind S a (Some S') -> recovers S' acts l r ->
    recovers S (a :: acts) (None :: l) r
| recovers_unsaid c S a acts : sensible S a -> does c S a Panics -> leaves_behind S a None -> recovers S (a :: acts) [None] Open
| recovers_loops c S a acts : sensible S a -> does c S a Loops -> recovers S (a :: acts) [] Loops
| recovers_open c S a acts : sensible S a -> does c S a Open -> recovers S (a :: acts) [] Open
| recovers_full c S a S' o acts : sensible S a -> does c S a (Goes S' o) -> ~ modest S' -> recovers S (a :: acts) [] Open
| recovers_senseless S a acts : ~ sensible S a -> recovers S (a :: acts) [] Open.

(** The states of such programs. *)
Inductive reach_r : shared -> Prop :=
| reach_r_start : reach_r sh_empty
| reach_r_step c S a S' o : reach_r S -> sensible S a -> does c S a (Goes S' o) -> modest S' -> reach_r S'
| reach_r_panic c S a S' : reach_r S -> sensible S a -> does c S a Panics -> leaves_behind S a (Some S') -> reach_r S'.

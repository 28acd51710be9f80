(** * Programs over shared memory

    A machine for clients that use any number of structs, slices, strings and
    iterators over the same memory, aliased in any way: copies of structs,
    sub-messages inside their parents, views held across mutations, buffers the
    client writes to or appends to itself.  A struct is a slice and positions
    (SpecPos.v), memory is byte arrays; what a call does is said by SpecPos.v and
    SpecMem.v on the cells the struct lies in.

    This file uses nothing of the model of the code except the record [slice]
    (array, offset, length, capacity: what a slice is in Go). *)
From Verif Require Import Spec SpecScan SpecFind SpecPos SpecMem.
From Verif Require Import Heap.

Notation arrays := (gmap nat (list Z)).

(** The cells of a slice up to its capacity, and its bytes. *)
Definition cells (A : arrays) (s : option slice) : list Z :=
  match s with
  | None => []
  | Some s => firstn (Z.to_nat (scap s)) (skipn (Z.to_nat (soff s)) match A !! sarr s with Some l => l | None => [] end)
  end.
Definition extent (s : option slice) : Z := match s with None => 0 | Some s => slen s end.
Definition bytes_in (A : arrays) (s : option slice) : list Z := firstn (Z.to_nat (extent s)) (cells A s).

(** The slice lies within its array. *)
Definition fits (A : arrays) (s : option slice) : Prop :=
  match s with
  | None => True
  | Some s => exists l, A !! sarr s = Some l /\ 0 <= soff s /\ 0 <= slen s <= scap s /\ soff s + scap s <= Z.of_nat (length l)
  end.

(** The memory after the cells of [s] have become [W]. *)
Definition rewritten (A : arrays) (s : option slice) (W : list Z) : arrays :=
  match s with
  | None => A
  | Some s => alter (fun l => firstn (Z.to_nat (soff s)) l ++ W ++ skipn (Z.to_nat (soff s + scap s)) l) (sarr s) A
  end.

(** [s[lo:hi]] (up to the capacity), [s[i:]]. *)
Definition part (s : slice) (lo hi : Z) : slice := mkSl (sarr s) (soff s + lo) (hi - lo) (scap s - lo).
Definition rest_of (s : slice) (i : Z) : slice := mkSl (sarr s) (soff s + i) (slen s - i) (scap s - i).
(** A string has no spare capacity. *)
Definition as_string (s : slice) : slice := mkSl (sarr s) (soff s) (slen s) (slen s).

(** What was in the cells of [s] has become [bs]: in the same cells, which now are
    [W], or in a new array, with some spare capacity (zeros).  Which array that is
    and how much it has to spare is up to the allocator: its choice is [c]. *)
Definition choice : Type := nat * nat.
Inductive put_back (c : choice) (A : arrays) (s : option slice) (W bs : list Z) : bool -> arrays -> option slice -> Prop :=
| back_in_place : put_back c A s W bs true (rewritten A s W)
    (option_map (fun t => mkSl (sarr t) (soff t) (Z.of_nat (length bs)) (scap t)) s)
| back_moved : A !! c.1 = None ->
    put_back c A s W bs false (<[c.1 := bs ++ replicate c.2 0]> (rewritten A s W))
      (Some (mkSl c.1 0 (Z.of_nat (length bs)) (Z.of_nat (length bs) + Z.of_nat c.2))).

(** A struct: its generated type (number of slots, repeated fields), its buffer
    and positions, and whether its message was always shorter than 65535 bytes. *)
Record obj := mkObj { o_n : nat; o_reps : list Z; o_buf : option slice; o_pos : Z -> option Z; o_short : bool }.
Definition state_of (A : arrays) (o : obj) : pstate := mkP (bytes_in A (o_buf o)) (o_pos o).
Definition become (o : obj) (b : option slice) (pos : Z -> option Z) : obj :=
  mkObj (o_n o) (o_reps o) b pos (o_short o && (extent b <? 65535)).

Record shared := mkShared { sh_arr : arrays; sh_objs : list obj; sh_held : list (option slice) }.
Definition sh_empty : shared := mkShared ∅ [] [].

(** What clients do.  Structs, and the slices and strings held, are numbered in
    the order in which they come into being. *)
Inductive act :=
| ANew (n : nat) (reps : list Z)             (* var m T *)
| ACopy (i : nat)                            (* m2 := m *)
| AMake (bs : list Z) (spare : nat)          (* a slice of the client's *)
| AWrite (k : nat) (j b : Z)                 (* s[j] = b *)
| AExtend (k : nat) (x : list Z)             (* append(s, x...) *)
| ACut (k : nat) (lo hi : Z)                 (* s[lo:hi] *)
| ALook (k : nat)                            (* read all of s *)
| ASet (i : nat) (f : Z) (T : ptype) (v : pval)
| ASetSlice (i : nat) (f : Z) (k : nat)      (* SetString, SetBytes, SetMessage: a slice or string held *)
| AAppend (i : nat) (f : Z) (k : nat)        (* AppendTo: likewise *)
| AGet (i : nat) (f : Z) (T : ptype)
| AEncode (i : nat)
| ADecode (i k : nat)
| AReset (i k : nat)
| AIter (i : nat) (f : Z)
| ANext (k : nat) (f : Z).                   (* FindNextField; k is the iterator *)

(** What they see. *)
Inductive seen :=
| SawNothing | SawValue (v : pval) | SawSlice (s : option slice) | SawBytes (bs : list Z) | SawError (e : bool).

(** [Open]: this machine does not say. *)
Inductive outcome := Goes (S : shared) (o : seen) | Panics | Loops | Open.

(** ** Setters and appends *)
Inductive set_result := SetTo (A : arrays) (o : obj) | SetPanics | SetOpen.

(** The cells after a setter that stretches the message. *)
Inductive leaves_stretched (T : ptype) (f : Z) (v : pval) (s : pstate) (W : list Z) : list Z -> bool -> Prop :=
| leaves_stretch p k tb lb x b e d n : pieces f (wire_of T v) tb lb x -> ppos s f = Some p -> p <= plen s ->
    occupies T (pbytes s) p k -> b = p - Z.of_nat (length tb) -> e = p + k -> 0 <= e < b -> d = b - e ->
    plen s + d <= Z.of_nat (length W) -> n = Z.to_nat (plen s + d) ->
    leaves_stretched T f v s W
      (added (put W (Z.to_nat b) (firstn (Z.to_nat (plen s - b)) (skipn (Z.to_nat e) (pbytes s)))) n [tb; lb; x])
      (stays (length W - n) [tb; lb; x]).

(** A setter with a number, or bytes that are nowhere in memory. *)
Inductive setting (c : choice) (A : arrays) (o : obj) (f : Z) (T : ptype) (v : pval) : set_result -> Prop :=
| setting_done s' W stay A' b : sets T f v (state_of A o) (Reached s') ->
    leaves T f v (state_of A o) (cells A (o_buf o)) W stay ->
    put_back c A (o_buf o) W (pbytes s') stay A' b -> setting c A o f T v (SetTo A' (become o b (ppos s')))
| setting_stretch s' W stay A' b : sets T f v (state_of A o) OBeyond ->
    stretches T f v (state_of A o) (cells A (o_buf o)) (Some s') ->
    (forall g q, 0 <= g < Z.of_nat (o_n o) -> ppos s' g = Some q -> q < 65535) ->
    leaves_stretched T f v (state_of A o) (cells A (o_buf o)) W stay ->
    put_back c A (o_buf o) W (pbytes s') stay A' b -> setting c A o f T v (SetTo A' (become o b (ppos s')))
| setting_panics : sets T f v (state_of A o) OFault -> setting c A o f T v SetPanics
| setting_no_room : sets T f v (state_of A o) OBeyond ->
    stretches T f v (state_of A o) (cells A (o_buf o)) None -> setting c A o f T v SetPanics
| setting_open s' g q : sets T f v (state_of A o) OBeyond ->
    stretches T f v (state_of A o) (cells A (o_buf o)) (Some s') ->
    0 <= g < Z.of_nat (o_n o) -> ppos s' g = Some q -> 65535 <= q -> setting c A o f T v SetOpen.

(** The bytes of an argument [a] are read when they are written, after other parts
    of the message have been: what is then read. *)
Inductive reads_arg (A : arrays) (o : obj) (f : Z) (a : option slice) : list Z -> Prop :=
| reads_first tb lb : let s := state_of A o in let x := bytes_in A a in
    pieces f (WBytes x) tb lb x -> ppos s f = None ->
    reads_arg A o f a (bytes_in (rewritten A (o_buf o) (added (cells A (o_buf o)) (length (pbytes s)) [tb; lb])) a)
| reads_same p tb lb : let s := state_of A o in let x := bytes_in A a in
    pieces f (WBytes x) tb lb x -> ppos s f = Some p -> p <= plen s ->
    occupies PBytes (pbytes s) p (Z.of_nat (length (lb ++ x))) ->
    reads_arg A o f a (bytes_in (rewritten A (o_buf o) (put (cells A (o_buf o)) (Z.to_nat p) (firstn (Z.to_nat (plen s - p)) lb))) a)
| reads_other p k tb lb b e n : let s := state_of A o in let x := bytes_in A a in
    pieces f (WBytes x) tb lb x -> ppos s f = Some p -> p <= plen s ->
    occupies PBytes (pbytes s) p k -> k <> Z.of_nat (length (lb ++ x)) ->
    b = p - Z.of_nat (length tb) -> e = p + k -> 0 <= b <= e -> e <= plen s -> n = Z.to_nat (plen s - (e - b)) ->
    reads_arg A o f a (bytes_in (rewritten A (o_buf o) (added (put (cells A (o_buf o)) (Z.to_nat b) (skipn (Z.to_nat e) (pbytes s))) n [tb; lb])) a)
| reads_stretch p k tb lb b e d n : let s := state_of A o in let x := bytes_in A a in
    pieces f (WBytes x) tb lb x -> ppos s f = Some p -> p <= plen s ->
    occupies PBytes (pbytes s) p k -> b = p - Z.of_nat (length tb) -> e = p + k -> 0 <= e < b -> d = b - e ->
    plen s + d <= Z.of_nat (length (cells A (o_buf o))) -> n = Z.to_nat (plen s + d) ->
    reads_arg A o f a (bytes_in (rewritten A (o_buf o)
      (added (put (cells A (o_buf o)) (Z.to_nat b) (firstn (Z.to_nat (plen s - b)) (skipn (Z.to_nat e) (pbytes s)))) n [tb; lb])) a)
| reads_never : let x := bytes_in A a in
    sets PBytes f (VBytes (Some x)) (state_of A o) OFault \/
    stretches PBytes f (VBytes (Some x)) (state_of A o) (cells A (o_buf o)) None -> reads_arg A o f a x.

Definition setting_slice (c : choice) (A : arrays) (o : obj) (f : Z) (a : option slice) (r : set_result) : Prop :=
  exists x, reads_arg A o f a x /\ setting c A o f PBytes (VBytes (Some x)) r.

Inductive appending (c : choice) (A : arrays) (o : obj) (f : Z) (a : option slice) : set_result -> Prop :=
| appending_done tb lb x s' W stay A' b :
    pieces f (WBytes (bytes_in A a)) tb lb (bytes_in A a) ->
    x = bytes_in (rewritten A (o_buf o) (added (cells A (o_buf o)) (length (bytes_in A (o_buf o))) [tb; lb])) a ->
    appends f x (state_of A o) (Reached s') ->
    leaves_append f x (state_of A o) (cells A (o_buf o)) W stay ->
    put_back c A (o_buf o) W (pbytes s') stay A' b -> appending c A o f a (SetTo A' (become o b (ppos s'))).

(** ** Getters *)
Definition is_slice_type (T : ptype) : bool := match T with PString | PBytes => true | _ => false end.

(** The slice a bytes or string getter returns; [None]: it panics. *)
Inductive gets_slice (A : arrays) (o : obj) (f : Z) : option (option slice) -> Prop :=
| slice_unset : o_pos o f = None -> gets_slice A o f (Some None)
| slice_found p t len n lo hi : o_pos o f = Some p -> p <= extent (o_buf o) -> o_buf o = Some t ->
    SpecScan.varint_at (at_pos (bytes_in A (o_buf o)) p) len n -> lo = (p + n) mod 2 ^ 64 -> hi = (lo + len) mod 2 ^ 64 ->
    lo <= hi <= scap t -> gets_slice A o f (Some (Some (part t lo hi)))
| slice_fails p t len n lo hi : o_pos o f = Some p -> p <= extent (o_buf o) -> o_buf o = Some t ->
    SpecScan.varint_at (at_pos (bytes_in A (o_buf o)) p) len n -> lo = (p + n) mod 2 ^ 64 -> hi = (lo + len) mod 2 ^ 64 ->
    ~ lo <= hi <= scap t -> gets_slice A o f None
| slice_outside p : o_pos o f = Some p -> extent (o_buf o) < p -> gets_slice A o f None.

(** ** All actions *)
Definition add_held (S : shared) (s : option slice) : shared := mkShared (sh_arr S) (sh_objs S) (sh_held S ++ [s]).
Definition set_obj (S : shared) (i : nat) (A : arrays) (o : obj) : shared := mkShared A (<[i := o]> (sh_objs S)) (sh_held S).

Inductive does (c : choice) (S : shared) : act -> outcome -> Prop :=
| does_new n reps : Z.of_nat n <= 2 ^ 29 ->
    does c S (ANew n reps) (Goes (mkShared (sh_arr S) (sh_objs S ++ [mkObj n reps None (fun _ => None) true]) (sh_held S)) SawNothing)
| does_copy i o : sh_objs S !! i = Some o -> o_short o = true ->
    does c S (ACopy i) (Goes (mkShared (sh_arr S) (sh_objs S ++ [o]) (sh_held S)) SawNothing)
| does_copy_open i o : sh_objs S !! i = Some o -> o_short o = false -> does c S (ACopy i) Open
| does_make bs spare : Forall is_byte bs -> sh_arr S !! c.1 = None ->
    let s := Some (mkSl c.1 0 (Z.of_nat (length bs)) (Z.of_nat (length bs) + Z.of_nat spare)) in
    does c S (AMake bs spare) (Goes (mkShared (<[c.1 := bs ++ replicate spare 0]> (sh_arr S)) (sh_objs S) (sh_held S ++ [s])) (SawSlice s))
| does_write k j b s : sh_held S !! k = Some s -> is_byte b -> 0 <= j < extent s ->
    does c S (AWrite k j b) (Goes (mkShared (rewritten (sh_arr S) s (put (cells (sh_arr S) s) (Z.to_nat j) [b])) (sh_objs S) (sh_held S)) SawNothing)
| does_write_out k j b s : sh_held S !! k = Some s -> is_byte b -> ~ 0 <= j < extent s -> does c S (AWrite k j b) Panics
| does_extend k x s n A' s' : sh_held S !! k = Some s -> Forall is_byte x -> n = Z.to_nat (extent s) ->
    put_back c (sh_arr S) s (added (cells (sh_arr S) s) n [x]) (bytes_in (sh_arr S) s ++ x) (stays (length (cells (sh_arr S) s) - n) [x]) A' s' ->
    does c S (AExtend k x) (Goes (mkShared A' (sh_objs S) (sh_held S ++ [s'])) (SawSlice s'))
| does_cut k lo hi t : sh_held S !! k = Some (Some t) -> 0 <= lo <= hi -> hi <= scap t ->
    does c S (ACut k lo hi) (Goes (add_held S (Some (part t lo hi))) (SawSlice (Some (part t lo hi))))
| does_cut_nil k : sh_held S !! k = Some None -> does c S (ACut k 0 0) (Goes (add_held S None) (SawSlice None))
| does_cut_out k lo hi s : sh_held S !! k = Some s -> ~ 0 <= lo <= hi \/ Z.of_nat (length (cells (sh_arr S) s)) < hi -> does c S (ACut k lo hi) Panics
| does_look k s : sh_held S !! k = Some s -> does c S (ALook k) (Goes S (SawBytes (bytes_in (sh_arr S) s)))
| does_set i f T v o A' o' : sh_objs S !! i = Some o -> 0 <= f < Z.of_nat (o_n o) -> in_type T v ->
    setting c (sh_arr S) o f T v (SetTo A' o') -> does c S (ASet i f T v) (Goes (set_obj S i A' o') SawNothing)
| does_set_panics i f T v o : sh_objs S !! i = Some o -> 0 <= f < Z.of_nat (o_n o) -> in_type T v ->
    setting c (sh_arr S) o f T v SetPanics -> does c S (ASet i f T v) Panics
| does_set_open i f T v o : sh_objs S !! i = Some o -> 0 <= f < Z.of_nat (o_n o) -> in_type T v ->
    setting c (sh_arr S) o f T v SetOpen -> does c S (ASet i f T v) Open
| does_slice i f k o a A' o' : sh_objs S !! i = Some o -> 0 <= f < Z.of_nat (o_n o) -> sh_held S !! k = Some a ->
    setting_slice c (sh_arr S) o f a (SetTo A' o') -> does c S (ASetSlice i f k) (Goes (set_obj S i A' o') SawNothing)
| does_slice_panics i f k o a : sh_objs S !! i = Some o -> 0 <= f < Z.of_nat (o_n o) -> sh_held S !! k = Some a ->
    setting_slice c (sh_arr S) o f a SetPanics -> does c S (ASetSlice i f k) Panics
| does_slice_open i f k o a : sh_objs S !! i = Some o -> 0 <= f < Z.of_nat (o_n o) -> sh_held S !! k = Some a ->
    setting_slice c (sh_arr S) o f a SetOpen -> does c S (ASetSlice i f k) Open
| does_append i f k o a A' o' : sh_objs S !! i = Some o -> 0 <= f < Z.of_nat (o_n o) -> sh_held S !! k = Some a ->
    appending c (sh_arr S) o f a (SetTo A' o') -> does c S (AAppend i f k) (Goes (set_obj S i A' o') SawNothing)
| does_get i f T o v : sh_objs S !! i = Some o -> 0 <= f < Z.of_nat (o_n o) -> is_slice_type T = false ->
    gets_in T (state_of (sh_arr S) o) (cells (sh_arr S) (o_buf o)) f (Some v) -> does c S (AGet i f T) (Goes S (SawValue v))
| does_get_panics i f T o : sh_objs S !! i = Some o -> 0 <= f < Z.of_nat (o_n o) -> is_slice_type T = false ->
    gets_in T (state_of (sh_arr S) o) (cells (sh_arr S) (o_buf o)) f None -> does c S (AGet i f T) Panics
| does_get_bytes i f o s : sh_objs S !! i = Some o -> 0 <= f < Z.of_nat (o_n o) ->
    gets_slice (sh_arr S) o f (Some s) -> does c S (AGet i f PBytes) (Goes (add_held S s) (SawSlice s))
| does_get_string i f o s : sh_objs S !! i = Some o -> 0 <= f < Z.of_nat (o_n o) ->
    gets_slice (sh_arr S) o f (Some s) ->
    does c S (AGet i f PString) (Goes (add_held S (option_map as_string s)) (SawSlice (option_map as_string s)))
| does_get_slice_panics i f T o : sh_objs S !! i = Some o -> 0 <= f < Z.of_nat (o_n o) -> is_slice_type T = true ->
    gets_slice (sh_arr S) o f None -> does c S (AGet i f T) Panics
| does_encode i o : sh_objs S !! i = Some o -> does c S (AEncode i) (Goes (add_held S (o_buf o)) (SawSlice (o_buf o)))
| does_decode i k o a l : sh_objs S !! i = Some o -> sh_held S !! k = Some a ->
    walk (Z.of_nat (o_n o)) (bytes_in (sh_arr S) a) 0 l (extent a) ->
    does c S (ADecode i k) (Goes (set_obj S i (sh_arr S) (become o a (fun f => recorded (o_reps o) f l None))) (SawError false))
| does_decode_error i k o a l j l2 : sh_objs S !! i = Some o -> sh_held S !! k = Some a ->
    walk (Z.of_nat (o_n o)) (bytes_in (sh_arr S) a) 0 l j -> ends_early (Z.of_nat (o_n o)) (bytes_in (sh_arr S) a) j l2 ->
    does c S (ADecode i k) (Goes (set_obj S i (sh_arr S) (become o a (fun f => recorded (o_reps o) f (l ++ l2) None))) (SawError true))
| does_decode_panics i k o a : sh_objs S !! i = Some o -> sh_held S !! k = Some a ->
    decodes (Z.of_nat (o_n o)) (o_reps o) (bytes_in (sh_arr S) a) OFault -> does c S (ADecode i k) Panics
| does_decode_loops i k o a : sh_objs S !! i = Some o -> sh_held S !! k = Some a ->
    decodes (Z.of_nat (o_n o)) (o_reps o) (bytes_in (sh_arr S) a) OLoops -> does c S (ADecode i k) Loops
| does_reset i k o a : sh_objs S !! i = Some o -> sh_held S !! k = Some a -> extent a = 0 ->
    does c S (AReset i k) (Goes (set_obj S i (sh_arr S) (become o a (fun _ => None))) SawNothing)
| does_reset_panics i k o a : sh_objs S !! i = Some o -> sh_held S !! k = Some a -> 0 < extent a -> does c S (AReset i k) Panics
| does_iter_none i f o : sh_objs S !! i = Some o -> 0 <= f < Z.of_nat (o_n o) -> o_pos o f = None ->
    does c S (AIter i f) (Goes (add_held S None) (SawSlice None))
| does_iter i f o t p : sh_objs S !! i = Some o -> 0 <= f < Z.of_nat (o_n o) -> o_pos o f = Some p -> o_buf o = Some t -> p <= slen t ->
    does c S (AIter i f) (Goes (add_held S (Some (rest_of t p))) (SawSlice (Some (rest_of t p))))
| does_iter_out i f o p : sh_objs S !! i = Some o -> 0 <= f < Z.of_nat (o_n o) -> o_pos o f = Some p -> extent (o_buf o) < p ->
    does c S (AIter i f) Panics
| does_next_nil k f : sh_held S !! k = Some None -> does c S (ANext k f) (Goes (add_held S None) (SawSlice None))
| does_next_more k f t x rest len lo hi : sh_held S !! k = Some (Some t) ->
    next_in f (bytes_in (sh_arr S) (Some t)) (cells (sh_arr S) (Some t)) (More x rest) ->
    SpecScan.varint_at (bytes_in (sh_arr S) (Some t)) len lo -> hi = signed64 (lo + len) ->
    does c S (ANext k f) (Goes (mkShared (sh_arr S) (sh_objs S)
      (<[k := Some (rest_of t (slen t - Z.of_nat (length rest)))]> (sh_held S) ++ [Some (part t lo hi)])) (SawSlice (Some (part t lo hi))))
| does_next_last k f t x len lo hi : sh_held S !! k = Some (Some t) ->
    next_in f (bytes_in (sh_arr S) (Some t)) (cells (sh_arr S) (Some t)) (Last x) ->
    SpecScan.varint_at (bytes_in (sh_arr S) (Some t)) len lo -> hi = signed64 (lo + len) ->
    does c S (ANext k f) (Goes (mkShared (sh_arr S) (sh_objs S)
      (<[k := None]> (sh_held S) ++ [Some (part t lo hi)])) (SawSlice (Some (part t lo hi))))
| does_next_panics k f t : sh_held S !! k = Some (Some t) ->
    next_in f (bytes_in (sh_arr S) (Some t)) (cells (sh_arr S) (Some t)) NFault -> does c S (ANext k f) Panics
| does_next_loops k f t : sh_held S !! k = Some (Some t) ->
    next_in f (bytes_in (sh_arr S) (Some t)) (cells (sh_arr S) (Some t)) NLoops -> does c S (ANext k f) Loops.

(** Programs Go's types and the generated code rule out. *)
Definition sensible (S : shared) (a : act) : Prop :=
  match a with
  | ANew n _ => Z.of_nat n <= 2 ^ 29
  | ACopy i | AEncode i => is_Some (sh_objs S !! i)
  | AMake bs _ => Forall is_byte bs
  | AWrite k _ b => is_Some (sh_held S !! k) /\ is_byte b
  | AExtend k x => is_Some (sh_held S !! k) /\ Forall is_byte x
  | ACut k _ _ | ALook k | ANext k _ => is_Some (sh_held S !! k)
  | ASet i f T v => (exists o, sh_objs S !! i = Some o /\ 0 <= f < Z.of_nat (o_n o)) /\ in_type T v /\ pval_size v < 2 ^ 60
  | ASetSlice i f k | AAppend i f k => (exists o, sh_objs S !! i = Some o /\ 0 <= f < Z.of_nat (o_n o)) /\ is_Some (sh_held S !! k)
  | AGet i f _ | AIter i f => exists o, sh_objs S !! i = Some o /\ 0 <= f < Z.of_nat (o_n o)
  | ADecode i k | AReset i k => is_Some (sh_objs S !! i) /\ is_Some (sh_held S !! k)
  end.

(** No array of 2^60 bytes or more. *)
Definition modest (S : shared) : Prop := forall a l, sh_arr S !! a = Some l -> Z.of_nat (length l) < 2 ^ 60.

(** Programs: what is seen, and how they end. *)
Inductive runs : shared -> list act -> list seen -> outcome -> Prop :=
| runs_done S : runs S [] [] (Goes S SawNothing)
| runs_step c S a S' o acts l r : sensible S a -> does c S a (Goes S' o) -> modest S' -> runs S' acts l r -> runs S (a :: acts) (o :: l) r
| runs_stop c S a acts r : sensible S a -> does c S a r -> (forall S' o, r <> Goes S' o) -> runs S (a :: acts) [] r
| runs_full c S a S' o acts : sensible S a -> does c S a (Goes S' o) -> ~ modest S' -> runs S (a :: acts) [] Open
| runs_senseless S a acts : ~ sensible S a -> runs S (a :: acts) [] Open.

(** The states of programs. *)
Inductive reach : shared -> Prop :=
| reach_start : reach sh_empty
| reach_step c S a S' o : reach S -> sensible S a -> does c S a (Goes S' o) -> modest S' -> reach S'.

(** * Goroutines: memory one access at a time

    Heap.v executes a call in one step.  Goroutines interleave at every access to
    memory, and Go promises nothing about a program in which two goroutines access
    the same location at the same time, one of them writing (a data race).  This
    file is a machine with goroutines that access single locations; AccessApi.v has
    the functions of zeropb.go and offsets.go as programs of it.

    Interleaving single accesses is what Go guarantees for programs without data
    races ("The Go Memory Model": such programs execute in a sequentially consistent
    way); the theorems prove that there are none. *)
From Verif Require Export Share.

(** Memory locations: the bytes of arrays, maps, and the parts of generated structs
    (golden/testzeropb/test.zeropb.go:7-13): the slice header of the buffer, the
    cells of the offsets array, the reference to the map.  A slice header or a map
    is one location (conservative: a race on part of it is a race on all of it).
    [Made k id] only says that number [id] is in use, no program accesses it. *)
Inductive kind := KArray | KMap | KStruct.
Inductive loc :=
| Made (kd : kind) (id : nat)
| Byte (a : nat) (j : Z)
| Table (l : nat)
| Buf (o : nat) | Off (o : nat) (i : nat) | Ref (o : nat).
(** What a location is part of. *)
Definition block (l : loc) : kind * nat :=
  match l with Made kd id => (kd, id) | Byte a _ => (KArray, a) | Table l => (KMap, l) | Buf o | Off o _ | Ref o => (KStruct, o) end.
(** The struct it is a part of. *)
Definition part_of (l : loc) : option nat := match l with Buf o | Off o _ | Ref o => Some o | _ => None end.
(** What it holds. *)
Inductive word := Num (z : Z) | Hdr (s : option slice) | Ptr (r : option nat) | Tbl (m : gmap Z Z).

#[global] Instance kind_eq : EqDecision kind. Proof. solve_decision. Defined.
#[global] Instance kind_count : Countable kind.
Proof.
  refine (inj_countable' (fun k => match k with KArray => 0 | KMap => 1 | KStruct => 2 end%nat)
    (fun n => match n with 0 => KArray | 1 => KMap | _ => KStruct end%nat) _).
  intros []; reflexivity.
Defined.
#[global] Instance loc_eq : EqDecision loc. Proof. solve_decision. Defined.
#[global] Instance loc_count : Countable loc.
Proof.
  refine (inj_countable'
    (fun l => match l with
       | Made k a => inl (inl (inl (k, a))) | Byte a j => inl (inl (inr (a, j))) | Table l => inl (inr l)
       | Buf o => inr (inl (inl o)) | Off o i => inr (inl (inr (o, i))) | Ref o => inr (inr o) end)
    (fun x => match x with
       | inl (inl (inl (k, a))) => Made k a | inl (inl (inr (a, j))) => Byte a j | inl (inr l) => Table l
       | inr (inl (inl o)) => Buf o | inr (inl (inr (o, i))) => Off o i | inr (inr o) => Ref o end) _).
  intros []; reflexivity.
Defined.

Notation heap := (gmap loc word).

(** Programs.  [New k n]: a new array of [n] zero bytes, a new map, a new zero struct
    with [n] offsets.  The outcome [OutOfFuel] is a loop cut off (see AccessApi.v). *)
Inductive prog (A : Type) : Type :=
| Stop (r : res A)
| Load (l : loc) (k : word -> prog A)
| Store (l : loc) (w : word) (k : prog A)
| New (kd : kind) (n : nat) (k : nat -> prog A).
Arguments Stop {A} r.
Arguments Load {A} l k.
Arguments Store {A} l w k.
Arguments New {A} kd n k.

(** [f] goes on with the outcome of [p], a panic included (recover). *)
Fixpoint catch {A B} (p : prog A) (f : res A -> prog B) : prog B :=
  match p with
  | Stop r => f r
  | Load l k => Load l (fun w => catch (k w) f)
  | Store l w k => Store l w (catch k f)
  | New kd n k => New kd n (fun id => catch (k id) f)
  end.
Definition bind {A B} (p : prog A) (f : A -> prog B) : prog B :=
  catch p (fun r => match r with Ok a => f a | Panic => Stop Panic | PastLen => Stop PastLen | OutOfFuel => Stop OutOfFuel end).
Notation "'let!' x ':=' m 'in' k" := (bind m (fun x => k))
  (at level 200, x pattern, m at level 100, k at level 200, right associativity).
Definition ret {A} (a : A) : prog A := Stop (Ok a).

(** New memory. *)
Definition new_list (kd : kind) (n id : nat) : list (loc * word) :=
  (Made kd id, Num 0) ::
  match kd with
  | KArray => map (fun j => (Byte id (Z.of_nat j), Num 0)) (seq 0 n)
  | KMap => [(Table id, Tbl ∅)]
  | KStruct => (Buf id, Hdr None) :: (Ref id, Ptr None) :: map (fun i => (Off id i, Num 0)) (seq 0 n)
  end.
Definition new_cells (kd : kind) (n id : nat) : heap := list_to_map (new_list kd n id).

(** ** Interleavings *)

(** One access of a goroutine.  The allocator hands out memory nobody uses. *)
Inductive tstep {A} (H : heap) : prog A -> heap -> prog A -> Prop :=
| step_load l w k : H !! l = Some w -> tstep H (Load l k) H (k w)
| step_store l w k : is_Some (H !! l) -> tstep H (Store l w k) (<[l := w]> H) k
| step_new kd n k id : (forall l w, H !! l = Some w -> block l <> (kd, id)) ->
    tstep H (New kd n k) (new_cells kd n id ∪ H) (k id).

(** A step of one of the goroutines, in any order. *)
Inductive cstep {A} : heap * list (prog A) -> heap * list (prog A) -> Prop :=
| cstep_thread H ps i p H' p' : ps !! i = Some p -> tstep H p H' p' -> cstep (H, ps) (H', <[i := p']> ps).
Inductive csteps {A} : heap * list (prog A) -> heap * list (prog A) -> Prop :=
| csteps_refl c : csteps c c
| csteps_step c1 c2 c3 : csteps c1 c2 -> cstep c2 c3 -> csteps c1 c3.

(** The access a goroutine is about to make: where, and whether it writes. *)
Definition next {A} (p : prog A) : option (loc * bool) :=
  match p with Load l _ => Some (l, false) | Store l _ _ => Some (l, true) | _ => None end.
(** A data race: two goroutines are about to access the same location, at least one
    of them to write. *)
Definition race {A} (ps : list (prog A)) : Prop :=
  exists i j p q l w1 w2, i <> j /\ ps !! i = Some p /\ ps !! j = Some q /\
    next p = Some (l, w1) /\ next q = Some (l, w2) /\ (w1 = true \/ w2 = true).
(** An access to memory that does not exist. *)
Definition wild {A} (H : heap) (ps : list (prog A)) : Prop :=
  exists i p l w, ps !! i = Some p /\ next p = Some (l, w) /\ H !! l = None.

(** ** One goroutine alone *)

(** The numbers in use. *)
Definition ids (kd : kind) (T : heap) : gset nat :=
  list_to_set (omap (fun l => if decide ((block l).1 = kd) then Some (block l).2 else None) (elements (dom T))).

(** [p] alone in the memory [T] it knows of, with an allocator, writing to nothing in
    [RO].  [None]: it accessed something else, or wrote to [RO]. *)
Fixpoint run {A} (al : kind -> gset nat -> nat) (RO : gset loc) (T : heap) (p : prog A) : option (res A * heap) :=
  match p with
  | Stop r => Some (r, T)
  | Load l k => match T !! l with Some w => run al RO T (k w) | None => None end
  | Store l w k =>
    match T !! l with Some _ => if decide (l ∈ RO) then None else run al RO (<[l := w]> T) k | None => None end
  | New kd n k => let id := pick (al kd) (ids kd T) in run al RO (new_cells kd n id ∪ T) (k id)
  end.

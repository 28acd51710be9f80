(** * Fork and join: what a program is that executes the goroutines in turn *)
From Verif Require Import GoBase Heap SpecShare.
From Verif Require Import Access AccessApi AccessFork AccessGo SpecGo.

(** The programs [ps] executed one at a time, in the order [is], each to its end. *)
Inductive in_order {A} : list nat -> heap * list (prog A) -> heap * list (prog A) -> Prop :=
| order_done c : in_order [] c c
| order_next i is G ps p G1 r c : ps !! i = Some p -> tsteps G p G1 (Stop r) ->
    in_order is (G1, <[i := Stop r]> ps) c -> in_order (i :: is) (G, ps) c.

(** A goroutine that was given [n] structs and [m] slices numbers those it makes itself
    from [n] and [m] on.  [renumber]: its program with [dx] and [dy] variables of other
    goroutines in between. *)
Section renumber.
Context (n m dx dy : nat).
Definition nth_struct (i : nat) : nat := if Nat.ltb i n then i else (i + dx)%nat.
Definition nth_slice (k : nat) : nat := if Nat.ltb k m then k else (k + dy)%nat.
Definition renumber (a : act) : act :=
  match a with
  | ANew _ _ | AMake _ _ => a
  | ACopy i => ACopy (nth_struct i)
  | AWrite k j b => AWrite (nth_slice k) j b
  | AExtend k x => AExtend (nth_slice k) x
  | ACut k lo hi => ACut (nth_slice k) lo hi
  | ALook k => ALook (nth_slice k)
  | ASet i f T v => ASet (nth_struct i) f T v
  | ASetSlice i f k => ASetSlice (nth_struct i) f (nth_slice k)
  | AAppend i f k => AAppend (nth_struct i) f (nth_slice k)
  | AGet i f T => AGet (nth_struct i) f T
  | AEncode i => AEncode (nth_struct i)
  | ADecode i k => ADecode (nth_struct i) (nth_slice k)
  | AReset i k => AReset (nth_struct i) (nth_slice k)
  | AIter i f => AIter (nth_struct i) f
  | ANext k f => ANext (nth_slice k) f
  end.
End renumber.

(** It advances only iterators of its own: one it was given it first copies
    (advancing it would assign to a variable of the others). *)
Definition advances_own (m : nat) (a : act) : Prop := match a with ANext k _ => (m <= k)%nat | _ => True end.

(** What goroutines given the variables [R] have made by the time they end with [R1]. *)
Definition made (R R1 : regs) : regs := mkRegs (drop (length (objs R)) (objs R1)) (drop (length (held R)) (held R1)).
Definition join2 (R R1 : regs) : regs := mkRegs (objs R ++ objs R1) (held R ++ held R1).
(** After the join: the common variables, and those of all goroutines in order. *)
Definition joined (R : regs) (Rs : list regs) : regs := foldl join2 R (map (made R) Rs).

(** The programs one after the other, as one program. *)
Fixpoint in_turn (n m dx dy : nat) (progs : list (list act)) (Rs : list regs) : list act :=
  match progs, Rs with
  | acts :: progs, R1 :: Rs =>
      map (renumber n m dx dy) acts ++ in_turn n m (dx + (length (objs R1) - n)) (dy + (length (held R1) - m)) progs Rs
  | _, _ => []
  end.

(** In memory [G] with variables [R] the goroutines [ts] have the rights they need, and
    keep to them. *)
Definition disciplined (R : regs) (G : heap) (ts : list task) : Prop :=
  exists owner : loc -> option nat, (forall kd id, owner (Made kd id) = None) /\
    forall i t, ts !! i = Some t -> grants owner i R G (may t) /\
      Forall (follows (length (objs R)) (length (held R)) (may t)) (todo t) /\ Forall (advances_own (length (held R))) (todo t).

(** Programs that alternate between one goroutine and several: [executed prog obs G R] says
    that with the memory [G], the variables [R] and [obs] seen, all goroutines have ended
    again.  [prog] is the whole as one program, in the order of the text. *)
Section executed.
Context (more : nat) (grow : Z -> Z -> Z).
Notation client := (c_client more grow).
Inductive executed : list act -> list (option SpecShare.seen) -> heap -> regs -> Prop :=
| ex_start : executed [] [] ∅ no_regs
| ex_alone prog obs G R acts G1 l R1 : executed prog obs G R ->
    csteps (G, [client R acts]) (G1, [Stop (Ok (l, R1))]) ->
    executed (prog ++ acts) (obs ++ l) G1 R1
| ex_fork prog obs G R ts G1 outs : executed prog obs G R -> disciplined R G ts ->
    csteps (G, map (fun t => client R (todo t)) ts) (G1, map (fun x => Stop (Ok x)) outs) ->
    executed (prog ++ in_turn (length (objs R)) (length (held R)) 0 0 (map todo ts) (map snd outs))
      (obs ++ concat (map fst outs)) G1 (joined R (map snd outs)).
End executed.

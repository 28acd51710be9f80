(** * Goroutines that pass parcels to each other over channels

    The parcels of C87, each sent as its variables.  A goroutine that has sent a parcel
    still has the variables and the machine lets it use them: that it does not is a rule
    ([keeps]), which is checked against what the goroutine itself has received and sent. *)
From Verif Require Import GoBase Heap SpecShare.
From Verif Require Import Access AccessApi AccessFork AccessGo SpecGo SpecHand.

(** What a goroutine does: receive a parcel from channel [c], send parcel [i] to it, or
    execute calls on parcel [i]. *)
Inductive move := Recv (c : nat) | Send (c i : nat) | Exec (i : nat) (acts : list act).
(** What happens to it. *)
Inductive event := Got (c i : nat) | Sent (c i : nat) | Begun (i : nat) (acts : list act) | Saw (i : nat) (l : seen_in).
(** What it does next, from what has happened to it so far. *)
Notation strategy := (list event -> option move).

(** All events in order, each with the goroutine it happened to. *)
Notation log := (list (nat * event)).
Definition mine (g : nat) (L : log) : list event := map snd (List.filter (fun e => Nat.eqb (fst e) g) L).
(** The calls executed on parcel [i], and what they have seen. *)
Definition calls_on (i : nat) (L : log) : list act := concat (map (fun e => match snd e with Begun j acts => if Nat.eqb j i then acts else [] | _ => [] end) L).
Definition seen_on (i : nat) (L : log) : seen_in := concat (map (fun e => match snd e with Saw j l => if Nat.eqb j i then l else [] | _ => [] end) L).

(** A goroutine has a parcel that it got or was given ([given]) and has not sent since. *)
Definition has (given : bool) (h : list event) (i : nat) : bool :=
  foldl (fun b e => match e with Got _ j => if Nat.eqb j i then true else b | Sent _ j => if Nat.eqb j i then false else b | _ => b end) given h.
(** Parcel [i] is given to goroutine [start !! i]. *)
Definition given (start : list nat) (g i : nat) : bool := match start !! i with Some g' => Nat.eqb g' g | None => false end.

(** What can happen to a goroutine, if channel [c] carries only certain parcels. *)
Inductive feasible (carries : nat -> nat -> Prop) (s : strategy) : list event -> Prop :=
| f_start : feasible carries s []
| f_got h c i : feasible carries s h -> s h = Some (Recv c) -> carries c i -> feasible carries s (h ++ [Got c i])
| f_sent h c i : feasible carries s h -> s h = Some (Send c i) -> feasible carries s (h ++ [Sent c i])
| f_saw h i acts l : feasible carries s h -> s h = Some (Exec i acts) -> feasible carries s (h ++ [Begun i acts; Saw i l]).

(** The rule, which is checked for each goroutine by itself: whatever has happened to it,
    it sends only parcels it has, and only over channels that carry them; it executes calls
    only on parcels it has, within their rights [rts] ([n] structs and [m] slices are
    common). *)
Definition keeps (n m : nat) (rts : list rights) (start : list nat) (carries : nat -> nat -> Prop) (gs : nat -> strategy) : Prop :=
  forall g h x, feasible carries (gs g) h -> gs g h = Some x ->
    match x with
    | Recv _ => True
    | Send c i => has (given start g i) h i = true /\ carries c i
    | Exec i acts => has (given start g i) h i = true /\ forall rt, rts !! i = Some rt -> Forall (follows n m rt) acts
    end.

(** Memory, events, the variables that goroutine [g] has for parcel [i], what it executes
    on which parcel, what is in the channels.  Parcels may be received in any order: a channel
    here may also be a pool, or a mutex (with its one parcel in it while it is unlocked). *)
Record net := mkNet {
  n_mem : heap; n_log : log; n_vars : nat -> nat -> regs; n_runs : nat -> option (nat * prog (seen_in * regs));
  n_chan : nat -> list (nat * regs) }.
Definition upd {A} (f : nat -> A) (k : nat) (x : A) : nat -> A := fun j => if Nat.eqb j k then x else f j.

Section net.
Context (more : nat) (grow : Z -> Z -> Z) (gs : nat -> strategy).
Inductive nstep : net -> net -> Prop :=
| s_recv G L V X Q g c i R q : X g = None -> gs g (mine g L) = Some (Recv c) -> Permutation (Q c) ((i, R) :: q) ->
    nstep (mkNet G L V X Q) (mkNet G (L ++ [(g, Got c i)]) (upd V g (upd (V g) i R)) X (upd Q c q))
| s_send G L V X Q g c i : X g = None -> gs g (mine g L) = Some (Send c i) ->
    nstep (mkNet G L V X Q) (mkNet G (L ++ [(g, Sent c i)]) V X (upd Q c (Q c ++ [(i, V g i)])))
| s_exec G L V X Q g i acts : X g = None -> gs g (mine g L) = Some (Exec i acts) ->
    nstep (mkNet G L V X Q) (mkNet G (L ++ [(g, Begun i acts)]) V (upd X g (Some (i, c_client more grow (V g i) acts))) Q)
| s_access G L V X Q g i p G' p' : X g = Some (i, p) -> tstep G p G' p' ->
    nstep (mkNet G L V X Q) (mkNet G' L V (upd X g (Some (i, p'))) Q)
| s_end G L V X Q g i l R : X g = Some (i, Stop (Ok (l, R))) ->
    nstep (mkNet G L V X Q) (mkNet G (L ++ [(g, Saw i l)]) (upd V g (upd (V g) i R)) (upd X g None) Q).
Inductive net_steps : net -> net -> Prop :=
| net_steps_refl w : net_steps w w
| net_steps_step w1 w2 w3 : net_steps w1 w2 -> nstep w2 w3 -> net_steps w1 w3.
End net.
(** All start with the common variables. *)
Definition net_start (G : heap) (R : regs) : net := mkNet G [] (fun _ _ => R) (fun _ => None) (fun _ => []).

(** Two goroutines are about to access the same location, one of them to write. *)
Definition net_race (w : net) : Prop :=
  exists g g' i i' p q l w1 w2, g <> g' /\ n_runs w g = Some (i, p) /\ n_runs w g' = Some (i', q) /\
    next p = Some (l, w1) /\ next q = Some (l, w2) /\ (w1 = true \/ w2 = true).
(** One is about to access memory that was not allocated. *)
Definition net_wild (w : net) : Prop := exists g i p l b, n_runs w g = Some (i, p) /\ next p = Some (l, b) /\ n_mem w !! l = None.
(** Parcel [i], with variables [R], is at rest: nobody executes calls on it and it is in a channel or
    with the goroutine that has it. *)
Definition rests (start : list nat) (w : net) (i : nat) (R : regs) : Prop :=
  (exists c, In (i, R) (n_chan w c)) \/
  exists g, has (given start g i) (mine g (n_log w)) i = true /\ n_vars w g i = R /\ forall p, n_runs w g <> Some (i, p).

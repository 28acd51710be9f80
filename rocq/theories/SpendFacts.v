(** * Counting accesses *)
From Verif Require Import GoBase Spec VarintFacts OffsetsFacts RecFacts DecodeFacts Heap Api.
From Verif Require Import Access AccessFacts AccessApi SpecGo SpecSpend.
From Coq Require Import ZifyBool.

(** All executions of [p] from [G]. *)
Definition cwp {A} (G : heap) (p : prog A) (Q : nat -> res A -> heap -> Prop) : Prop :=
  forall k G' r, spends G p k G' r -> Q k r G'.

Lemma cwp_mono {A} G (p : prog A) (Q Q' : nat -> res A -> heap -> Prop) : cwp G p Q -> (forall k r G', Q k r G' -> Q' k r G') -> cwp G p Q'.
Proof. intros H1 H2 k G' r H. apply H2, H1, H. Qed.
Lemma cwp_stop {A} G (r : res A) (Q : nat -> res A -> heap -> Prop) : Q 0%nat r G -> cwp G (Stop r) Q.
Proof. intros HQ k G' r' H. inversion H; subst. exact HQ. Qed.
Lemma cwp_ret {A} G (a : A) (Q : nat -> res A -> heap -> Prop) : Q 0%nat (Ok a) G -> cwp G (ret a) Q.
Proof. apply cwp_stop. Qed.
Lemma spends_catch {A B} (p : prog A) (f : res A -> prog B) : forall G k G' r, spends G (catch p f) k G' r ->
  exists k1 G1 r1 k2, spends G p k1 G1 r1 /\ spends G1 (f r1) k2 G' r /\ k = (k1 + k2)%nat.
Proof.
  induction p as [r0|l kk IH|l w kk IH|kd n kk IH]; intros G k G' r H; cbn [catch] in H.
  - exists 0%nat, G, r0, k. split; [constructor|]. auto.
  - inversion H as [|? ? w ? n ? ? Hl Hs| |]; subst. destruct (IH w _ _ _ _ Hs) as (k1 & G1 & r1 & k2 & H1 & H2 & ->).
    exists (S k1), G1, r1, k2. split; [econstructor; eassumption|]. auto.
  - inversion H as [| |? ? ? ? n ? ? Hl Hs|]; subst. destruct (IH _ _ _ _ Hs) as (k1 & G1 & r1 & k2 & H1 & H2 & ->).
    exists (S k1), G1, r1, k2. split; [econstructor; eassumption|]. auto.
  - inversion H as [| | |? ? ? ? id n' ? ? Hl Hs]; subst. destruct (IH id _ _ _ _ Hs) as (k1 & G1 & r1 & k2 & H1 & H2 & ->).
    exists (S k1), G1, r1, k2. split; [econstructor; eassumption|]. auto.
Qed.
Lemma cwp_catch {A B} G (p : prog A) (f : res A -> prog B) (Q : nat -> res B -> heap -> Prop) :
  cwp G p (fun k r G' => cwp G' (f r) (fun k2 r2 G2 => Q (k + k2)%nat r2 G2)) -> cwp G (catch p f) Q.
Proof. intros H k G' r Hs. apply spends_catch in Hs as (k1 & G1 & r1 & k2 & H1 & H2 & ->). exact (H _ _ _ H1 _ _ _ H2). Qed.
Lemma cwp_bind {A B} G (p : prog A) (f : A -> prog B) (Q : nat -> res B -> heap -> Prop) :
  cwp G p (fun k r G' => match r with Ok a => cwp G' (f a) (fun k2 r2 G2 => Q (k + k2)%nat r2 G2)
    | Panic => Q k Panic G' | PastLen => Q k PastLen G' | OutOfFuel => Q k OutOfFuel G' end) -> cwp G (bind p f) Q.
Proof.
  intros H. apply cwp_catch. eapply cwp_mono; [exact H|]. intros k [a| | |] G' HQ; [exact HQ|..]; apply cwp_stop; rewrite Nat.add_0_r; exact HQ.
Qed.
Lemma cwp_load {A} G l (k : word -> prog A) (Q : nat -> res A -> heap -> Prop) :
  (forall w, G !! l = Some w -> cwp G (k w) (fun n r G' => Q (S n) r G')) -> cwp G (Load l k) Q.
Proof. intros H k' G' r Hs. inversion Hs as [|? ? w ? n ? ? Hl Hs'| |]; subst. exact (H _ Hl _ _ _ Hs'). Qed.
Lemma cwp_store G l w (Q : nat -> res unit -> heap -> Prop) : (is_Some (G !! l) -> Q 1%nat (Ok tt) (<[l := w]> G)) -> cwp G (store l w) Q.
Proof.
  intros H k' G' r Hs. inversion Hs as [| |? ? ? ? n ? ? Hl Hs'|]; subst. inversion Hs'; subst. auto.
Qed.
Lemma cwp_new G kd n (Q : nat -> res nat -> heap -> Prop) :
  (forall id, (forall l w, G !! l = Some w -> block l <> (kd, id)) -> Q 1%nat (Ok id) (new_cells kd n id ∪ G)) -> cwp G (new kd n) Q.
Proof. intros H k' G' r Hs. inversion Hs as [| | |? ? ? ? id n' ? ? Hl Hs']; subst. inversion Hs'; subst. auto. Qed.
Lemma cwp_lift {A B} G (r : res A) (f : A -> prog B) (Q : nat -> res B -> heap -> Prop) :
  match r with Ok a => cwp G (f a) Q | Panic => Q 0%nat Panic G | PastLen => Q 0%nat PastLen G | OutOfFuel => Q 0%nat OutOfFuel G end -> cwp G (bind (Stop r) f) Q.
Proof. intros H. apply cwp_bind, cwp_stop. destruct r; exact H. Qed.

(** ** Programs whose cost does not depend on what is in memory *)

(** At most [b] accesses, writing only to [W] and to new memory; [Q] holds of the result. *)
Fixpoint tame {A} (W : loc -> Prop) (b : nat) (p : prog A) (Q : A -> Prop) : Prop :=
  match p with
  | Stop r => match r with Ok a => Q a | _ => True end
  | Load l k => exists b', b = S b' /\ forall w, tame W b' (k w) Q
  | Store l w k => exists b', b = S b' /\ W l /\ tame W b' k Q
  | New kd n k => exists b', b = S b' /\ forall id, tame W b' (k id) Q
  end.
Lemma tame_mono {A} (W W' : loc -> Prop) (p : prog A) (Q Q' : A -> Prop) : forall b b',
  tame W b p Q -> (b <= b')%nat -> (forall l, W l -> W' l) -> (forall a, Q a -> Q' a) -> tame W' b' p Q'.
Proof.
  induction p as [r|l k IH|l w k IH|kd n k IH]; intros b b' H Hb HW HQ; cbn [tame] in *.
  - destruct r; auto.
  - destruct H as (c & -> & H). destruct b' as [|b']; [lia|]. exists b'. split; [reflexivity|]. intros w. eapply IH; eauto. lia.
  - destruct H as (c & -> & Hl & H). destruct b' as [|b']; [lia|]. exists b'. split; [reflexivity|]. split; [auto|]. eapply IH; eauto. lia.
  - destruct H as (c & -> & H). destruct b' as [|b']; [lia|]. exists b'. split; [reflexivity|]. intros w. eapply IH; eauto. lia.
Qed.
Lemma tame_bind {A B} W (p : prog A) (f : A -> prog B) (Q1 : A -> Prop) Q : forall b1 b2,
  tame W b1 p Q1 -> (forall a, Q1 a -> tame W b2 (f a) Q) -> tame W (b1 + b2) (bind p f) Q.
Proof.
  unfold bind. induction p as [r|l k IH|l w k IH|kd n k IH]; intros b1 b2 H Hf; cbn [tame catch] in *.
  - destruct r as [a| | |]; cbn [tame]; auto. eapply tame_mono; [apply Hf, H|lia|auto|auto].
  - destruct H as (c & -> & H). exists (c + b2)%nat. split; [reflexivity|]. intros w. apply IH; auto.
  - destruct H as (c & -> & Hl & H). exists (c + b2)%nat. split; [reflexivity|]. split; [exact Hl|]. apply IH; auto.
  - destruct H as (c & -> & H). exists (c + b2)%nat. split; [reflexivity|]. intros w. apply IH; auto.
Qed.

(** What is in memory and not in [W] stays. *)
Definition kept (W : loc -> Prop) (G G' : heap) : Prop := forall l w, ~ W l -> G !! l = Some w -> G' !! l = Some w.
Lemma kept_refl W G : kept W G G. Proof. intros l w _ H. exact H. Qed.
Lemma kept_trans W G1 G2 G3 : kept W G1 G2 -> kept W G2 G3 -> kept W G1 G3.
Proof. intros H1 H2 l w Hn H. eauto. Qed.
Lemma kept_new W kd n id G : (forall l w, G !! l = Some w -> block l <> (kd, id)) -> kept W G (new_cells kd n id ∪ G).
Proof.
  intros Hf l w _ Hl. rewrite lookup_union_r; [exact Hl|]. destruct (new_cells kd n id !! l) eqn:E; [|reflexivity].
  apply new_block in E. exfalso. exact (Hf _ _ Hl E).
Qed.
Lemma kept_insert (W : loc -> Prop) l w G : W l -> kept W G (<[l := w]> G).
Proof. intros HW l' w' Hn Hl. rewrite lookup_insert_ne by congruence. exact Hl. Qed.

Lemma cwp_tame {A} W (p : prog A) (Q : A -> Prop) : forall b G, tame W b p Q ->
  cwp G p (fun k r G' => (k <= b)%nat /\ kept W G G' /\ match r with Ok a => Q a | _ => True end).
Proof.
  induction p as [r|l k IH|l w k IH|kd n k IH]; intros b G H; cbn [tame] in H.
  - apply cwp_stop. split; [lia|]. split; [apply kept_refl|exact H].
  - destruct H as (c & -> & H). apply cwp_load. intros w _. eapply cwp_mono; [exact (IH w c G (H w))|]. cbv beta. intros n r G' (H1 & H2 & H3).
    split; [lia|]. auto.
  - destruct H as (c & -> & Hl & H). intros k' G' r Hs. inversion Hs as [| |? ? ? ? n ? ? Hl' Hs'|]; subst.
    destruct (IH c _ H _ _ _ Hs') as (H1 & H2 & H3). split; [lia|]. split; [|exact H3]. eapply kept_trans; [apply kept_insert, Hl|exact H2].
  - destruct H as (c & -> & H). intros k' G' r Hs. inversion Hs as [| | |? ? ? ? id n' ? ? Hl Hs']; subst.
    destruct (IH id c _ (H id) _ _ _ Hs') as (H1 & H2 & H3). split; [lia|]. split; [|exact H3]. eapply kept_trans; [apply kept_new, Hl|exact H2].
Qed.
(** A tame part, then the rest. *)
Lemma cwp_tame_bind {A B} W b G (p : prog A) (f : A -> prog B) (Q1 : A -> Prop) (Q : nat -> res B -> heap -> Prop) :
  tame W b p Q1 ->
  (forall k G', (k <= b)%nat -> kept W G G' -> Q k Panic G' /\ Q k PastLen G' /\ Q k OutOfFuel G') ->
  (forall k G' a, (k <= b)%nat -> kept W G G' -> Q1 a -> cwp G' (f a) (fun k2 r2 G2 => Q (k + k2)%nat r2 G2)) ->
  cwp G (bind p f) Q.
Proof.
  intros Ht Hbad Hok. apply cwp_bind. eapply cwp_mono; [apply (cwp_tame W p Q1 b G Ht)|]. cbv beta. intros k r G' (H1 & H2 & H3).
  destruct r; [apply Hok; assumption|apply Hbad; assumption..].
Qed.

Definition nothing : loc -> Prop := fun _ => False.
Definition of_struct (o : nat) : loc -> Prop := fun l => (exists i, l = Off o i) \/ l = Ref o \/ exists t, l = Table t.

Ltac tame_go := repeat first
  [ match goal with |- exists b', ?b = S b' /\ _ => eexists; split; [reflexivity|] end
  | match goal with |- forall _, _ => intro end
  | match goal with |- _ /\ _ => split end
  | exact I ].

Lemma tame_offsets_get n o f : tame nothing 3 (c_offsets_get n o f) (fun _ => True).
Proof.
  unfold c_offsets_get. destruct (in_array n f); [|exact I]. cbn. eexists; split; [reflexivity|]. intros w. destruct (negb _); [exact I|].
  cbn. eexists; split; [reflexivity|]. intros w2. destruct (as_ref w2); [|exact I]. cbn. eexists; split; [reflexivity|]. intros w3. exact I.
Qed.
Lemma tame_offsets_set n o f x : tame (of_struct o) 7 (c_offsets_set n o f x) (fun _ => True).
Proof.
  assert (HO : forall i, of_struct o (Off o i)) by (intros i; left; eauto).
  assert (HR : of_struct o (Ref o)) by (right; left; reflexivity). assert (HT : forall t, of_struct o (Table t)) by (intros t; right; right; eauto).
  unfold c_offsets_set. destruct (x <=? offsetMaxInArray); (destruct (in_array n f); [|exact I]).
  - cbn. eexists; split; [reflexivity|]. intros w. destruct (as_num w =? offsetInMap); cbn.
    + eexists; split; [reflexivity|]. intros w2. destruct (as_ref w2); cbn.
      * eexists; split; [reflexivity|]. intros w3. eexists; split; [reflexivity|]. split; [apply HT|]. eexists; split; [reflexivity|]. split; [apply HO|exact I].
      * eexists; split; [reflexivity|]. split; [apply HO|exact I].
    + eexists; split; [reflexivity|]. split; [apply HO|exact I].
  - cbn. eexists; split; [reflexivity|]. split; [apply HO|]. eexists; split; [reflexivity|]. intros w. destruct (as_ref w); cbn.
    + eexists; split; [reflexivity|]. intros w2. destruct (as_ref w2); cbn; [|exact I]. eexists; split; [reflexivity|]. intros w3. eexists; split; [reflexivity|]. split; [apply HT|exact I].
    + eexists; split; [reflexivity|]. intros id. eexists; split; [reflexivity|]. split; [apply HR|]. eexists; split; [reflexivity|]. intros w2. destruct (as_ref w2); cbn; [|exact I].
      eexists; split; [reflexivity|]. intros w3. eexists; split; [reflexivity|]. split; [apply HT|exact I].
Qed.
Lemma tame_zero k : forall i o, tame (of_struct o) k (c_zero k i o) (fun _ => True).
Proof. induction k as [|k IH]; intros i o; cbn; [exact I|]. eexists; split; [reflexivity|]. split; [left; eauto|apply IH]. Qed.
Lemma tame_clear n o : tame (of_struct o) (n + 3) (c_clear n o) (fun _ => True).
Proof.
  unfold c_clear. eapply tame_bind; [apply tame_zero|]. intros _ _. cbn. eexists; split; [reflexivity|]. intros w. destruct (as_ref w); cbn; [|exact I].
  eexists; split; [reflexivity|]. intros w3. eexists; split; [reflexivity|]. split; [right; right; eauto|exact I].
Qed.
Lemma tame_load_num l : tame nothing 1 (load_num l) (fun _ => True).
Proof. cbn. eexists; split; [reflexivity|]. intros w. exact I. Qed.
Lemma tame_load_slice l : tame nothing 1 (load_slice l) (fun _ => True).
Proof. cbn. eexists; split; [reflexivity|]. intros w. exact I. Qed.
Lemma tame_read a n : forall pos, tame nothing n (c_read a pos n) (fun l => length l = n).
Proof.
  induction n as [|n IH]; intros pos; cbn [c_read]; [reflexivity|].
  apply (tame_bind nothing _ _ (fun _ => True) _ 1 n); [apply tame_load_num|]. intros b _.
  rewrite <- (Nat.add_0_r n) at 1. eapply tame_bind; [apply IH|]. intros l Hl. cbn. rewrite Hl. reflexivity.
Qed.
Definition in_array_of (a : nat) : loc -> Prop := fun l => exists j, l = Byte a j.
Lemma tame_write a bs : forall pos, tame (in_array_of a) (length bs) (c_write a pos bs) (fun _ => True).
Proof. induction bs as [|b bs IH]; intros pos; cbn; [exact I|]. eexists; split; [reflexivity|]. split; [exists pos; reflexivity|apply IH]. Qed.
Lemma tame_bytes s n : tame nothing (Z.to_nat n) (c_bytes s n) (fun l => (length l <= Z.to_nat n)%nat).
Proof.
  destruct s as [s|]; cbn [c_bytes]; [|cbn; lia]. eapply tame_mono; [apply tame_read|lia|auto|]. cbv beta. intros l ->. lia.
Qed.
Lemma tame_src v n : tame nothing (Z.to_nat n) (c_src v n) (fun l => (length l <= Z.to_nat n)%nat).
Proof.
  destruct v as [bs|s]; cbn [c_src]; [|apply tame_bytes]. cbn. rewrite take_length. lia.
Qed.

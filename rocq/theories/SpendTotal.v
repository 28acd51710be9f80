(** * Executions that exist and cost at least so much *)
From Verif Require Import GoBase Spec VarintFacts OffsetsFacts RecFacts DecodeFacts Runtime GenApi Heap HeapFacts Api.
From Verif Require Import Access AccessFacts AccessApi SpecGo SpecSpend SpendFacts SpendGet SpendHostile.
From Coq Require Import ZifyBool.

(** There is an execution, and all end in [Q]. *)
Fixpoint twp {A} (G : heap) (p : prog A) (Q : nat -> res A -> heap -> Prop) : Prop :=
  match p with
  | Stop r => Q 0%nat r G
  | Load l k => exists w, G !! l = Some w /\ twp G (k w) (fun n => Q (S n))
  | Store l w k => is_Some (G !! l) /\ twp (<[l := w]> G) k (fun n => Q (S n))
  | New kd m k => forall id, (forall l w, G !! l = Some w -> block l <> (kd, id)) -> twp (new_cells kd m id ∪ G) (k id) (fun n => Q (S n))
  end.
Lemma twp_all {A} (p : prog A) : forall G Q, twp G p Q -> cwp G p Q.
Proof.
  induction p as [r|l k IH|l w k IH|kd m k IH]; intros G Q H k' G' r' Hs; cbn [twp] in H; inversion Hs; subst.
  - exact H.
  - destruct H as (w' & Hw & H). match goal with E : G !! l = Some ?w |- _ => rewrite Hw in E; injection E as <- end. exact (IH _ _ _ H _ _ _ ltac:(eassumption)).
  - destruct H as (_ & H). exact (IH _ _ H _ _ _ ltac:(eassumption)).
  - match goal with E : forall l w, _ |- _ => specialize (H _ E) end. exact (IH _ _ _ H _ _ _ ltac:(eassumption)).
Qed.
Lemma twp_ex {A} (p : prog A) : forall G Q, twp G p Q -> exists k G' r, spends G p k G' r.
Proof.
  induction p as [r|l k IH|l w k IH|kd m k IH]; intros G Q H; cbn [twp] in H.
  - do 3 eexists. constructor.
  - destruct H as (w & Hw & H). destruct (IH _ _ _ H) as (n & G' & r & Hs). do 3 eexists. econstructor; eassumption.
  - destruct H as (Hw & H). destruct (IH _ _ H) as (n & G' & r & Hs). do 3 eexists. econstructor; eassumption.
  - assert (Hf : forall l w, G !! l = Some w -> block l <> (kd, pick (fun d => size d) (ids kd G))).
    { intros l w E Hbl. apply (pick_fresh (fun d => size d) (ids kd G)). apply elem_ids. eauto. }
    destruct (IH _ _ _ (H _ Hf)) as (n & G' & r & Hs). do 3 eexists. econstructor; eassumption.
Qed.
Lemma twp_mono {A} (p : prog A) : forall G (Q Q' : nat -> res A -> heap -> Prop), twp G p Q -> (forall k r G', Q k r G' -> Q' k r G') -> twp G p Q'.
Proof.
  induction p as [r|l k IH|l w k IH|kd m k IH]; intros G Q Q' H HQ; cbn [twp] in *.
  - auto.
  - destruct H as (w & Hw & H). exists w. split; [exact Hw|]. eapply IH; [exact H|]. cbv beta. auto.
  - destruct H as (Hw & H). split; [exact Hw|]. eapply IH; [exact H|]. cbv beta. auto.
  - intros id Hf. eapply IH; [exact (H id Hf)|]. cbv beta. auto.
Qed.
(** What every execution does, of one that exists. *)
Lemma twp_and {A} (p : prog A) : forall G (Q Q' : nat -> res A -> heap -> Prop), twp G p Q -> cwp G p Q' -> twp G p (fun k r G' => Q k r G' /\ Q' k r G').
Proof.
  induction p as [r|l k IH|l w k IH|kd m k IH]; intros G Q Q' H HQ; cbn [twp] in *.
  - split; [exact H|]. apply HQ. constructor.
  - destruct H as (w & Hw & H). exists w. split; [exact Hw|]. apply (IH w G (fun n => Q (S n)) (fun n => Q' (S n)) H).
    intros n G' r Hs. apply HQ. econstructor; eassumption.
  - destruct H as (Hw & H). split; [exact Hw|]. apply (IH _ (fun n => Q (S n)) (fun n => Q' (S n)) H).
    intros n G' r Hs. apply HQ. econstructor; eassumption.
  - intros id Hf. apply (IH id _ (fun n => Q (S n)) (fun n => Q' (S n)) (H id Hf)). intros n G' r Hs. apply HQ. econstructor; eassumption.
Qed.
Lemma twp_catch {A B} (p : prog A) (f : res A -> prog B) : forall G (Q : nat -> res B -> heap -> Prop),
  twp G p (fun k r G' => twp G' (f r) (fun k2 r2 G2 => Q (k + k2)%nat r2 G2)) -> twp G (catch p f) Q.
Proof.
  induction p as [r|l k IH|l w k IH|kd m k IH]; intros G Q H; cbn [twp catch] in *.
  - exact H.
  - destruct H as (w & Hw & H). exists w. split; [exact Hw|]. apply IH. exact H.
  - destruct H as (Hw & H). split; [exact Hw|]. apply IH. exact H.
  - intros id Hf. apply IH. exact (H id Hf).
Qed.
Lemma twp_bind {A B} G (p : prog A) (f : A -> prog B) (Q : nat -> res B -> heap -> Prop) :
  twp G p (fun k r G' => match r with Ok a => twp G' (f a) (fun k2 r2 G2 => Q (k + k2)%nat r2 G2)
    | Panic => Q k Panic G' | PastLen => Q k PastLen G' | OutOfFuel => Q k OutOfFuel G' end) -> twp G (bind p f) Q.
Proof.
  intros H. apply twp_catch. eapply twp_mono; [exact H|]. intros k [a| | |] G' HQ; [exact HQ|..]; cbn [twp]; rewrite Nat.add_0_r; exact HQ.
Qed.
Lemma twp_lift {A B} G (r : res A) (f : A -> prog B) (Q : nat -> res B -> heap -> Prop) :
  match r with Ok a => twp G (f a) Q | Panic => Q 0%nat Panic G | PastLen => Q 0%nat PastLen G | OutOfFuel => Q 0%nat OutOfFuel G end -> twp G (bind (Stop r) f) Q.
Proof. intros H. apply twp_bind. cbn [twp]. destruct r; exact H. Qed.

(** ** The functions of the package *)

(** A struct with [n] positions, set or not. *)
Definition ready (G : heap) (n o : nat) : Prop :=
  is_Some (G !! Buf o) /\ (forall i, (i < n)%nat -> is_Some (G !! Off o i)) /\
  (exists r, G !! Ref o = Some (Ptr r) /\ forall l, r = Some l -> is_Some (G !! Table l)).
Lemma some_insert (G : heap) l w l2 : is_Some (G !! l2) -> is_Some (<[l := w]> G !! l2).
Proof. intros Hx. destruct (decide (l = l2)) as [->|Hn]; [rewrite lookup_insert; eauto|rewrite lookup_insert_ne by exact Hn; exact Hx]. Qed.
Lemma some_new (G : heap) kd m id l2 : is_Some (G !! l2) -> is_Some ((new_cells kd m id ∪ G) !! l2).
Proof. intros [x Hx]. destruct (new_cells kd m id !! l2) eqn:E; [erewrite lookup_union_Some_l by exact E; eauto|]. rewrite lookup_union_r by exact E. eauto. Qed.
Lemma ready_store G n o l w : l <> Ref o -> ready G n o -> ready (<[l := w]> G) n o.
Proof.
  intros Hl (H1 & H2 & r & H3 & H4). split; [apply some_insert, H1|]. split; [intros i Hi; apply some_insert, H2, Hi|].
  exists r. rewrite lookup_insert_ne by exact Hl. split; [exact H3|]. intros t Ht. apply some_insert, H4, Ht.
Qed.
Lemma twp_store {B} G l w (f : unit -> prog B) (Q : nat -> res B -> heap -> Prop) : is_Some (G !! l) -> twp (<[l := w]> G) (f tt) (fun k => Q (S k)) -> twp G (bind (store l w) f) Q.
Proof. intros H1 H2. split; [exact H1|exact H2]. Qed.

Lemma twp_set G n o f x : in_array n f = true -> ready G n o -> twp G (c_offsets_set n o f x) (fun _ _ G' => ready G' n o).
Proof.
  intros Hf HR. pose proof HR as (H1 & H2 & r & H3 & H4). unfold c_offsets_set. rewrite Hf. unfold in_array in Hf.
  assert (Ho : is_Some (G !! Off o (Z.to_nat f))) by (apply H2; lia).
  assert (HN : Off o (Z.to_nat f) <> Ref o) by discriminate.
  destruct (x <=? offsetMaxInArray).
  - destruct Ho as [w Hw]. exists w. split; [exact Hw|]. apply twp_bind. destruct (as_num w =? offsetInMap).
    + exists (Ptr r). split; [exact H3|]. cbn [as_ref]. destruct r as [l|].
      * destruct (H4 l eq_refl) as [w2 Hw2]. exists w2. split; [exact Hw2|]. split; [eauto|]. cbn [twp]. split; [apply some_insert; eauto|].
        apply ready_store; [exact HN|]. apply ready_store; [discriminate|exact HR].
      * cbn [twp]. split; [eauto|]. apply ready_store; [exact HN|exact HR].
    + cbn [twp ret]. split; [eauto|]. apply ready_store; [exact HN|exact HR].
  - split; [exact Ho|]. cbn [catch]. pose proof (ready_store G n o _ (Num offsetInMap) HN HR) as HR1. remember (<[Off o (Z.to_nat f):=Num offsetInMap]> G) as G1 eqn:E1. clear E1.
    destruct HR1 as (K1 & K2 & r1 & K3 & K4). exists (Ptr r1). split; [exact K3|]. cbn [as_ref]. apply twp_bind.
    assert (Hend : forall k G2 l, ready G2 n o -> G2 !! Ref o = Some (Ptr (Some l)) -> twp G2 (bind (Load (Ref o) (fun w => ret (as_ref w))) (fun r =>
         match r with None => Stop Panic | Some l => let! m := load_map (Table l) in store (Table l) (Tbl (<[f := x]> m)) end)) (fun (_ : nat) _ G' => (fun (_ : nat) => ready G' n o) k)).
    { intros k G2 l HR2 Hl. exists (Ptr (Some l)). split; [exact Hl|]. cbn [as_ref]. pose proof HR2 as (_ & _ & r2 & E2 & E3). rewrite Hl in E2. injection E2 as <-.
      destruct (E3 l eq_refl) as [w Hw]. exists w. split; [exact Hw|]. split; [eauto|]. apply ready_store; [discriminate|exact HR2]. }
    destruct r1 as [l|].
    + cbn [twp ret]. apply (Hend 0%nat G1 l); [|exact K3]. split; [exact K1|]. split; [exact K2|]. eauto.
    + cbn [bind catch new twp]. intros id Hid. cbn [twp store catch]. split; [apply some_new; eauto|].
      apply (Hend 0%nat _ id); [|apply lookup_insert]. split; [apply some_insert, some_new, K1|]. split; [intros i Hi; apply some_insert, some_new, K2, Hi|].
      exists (Some id). split; [apply lookup_insert|]. intros t Ht. injection Ht as <-. apply some_insert. eexists. apply lookup_union_Some_l. cbn. 
      rewrite lookup_insert_ne by discriminate. apply lookup_insert.
Qed.
Lemma twp_get G n o f : in_array n f = true -> ready G n o -> twp G (c_offsets_get n o f) (fun _ _ G' => G' = G).
Proof.
  intros Hf HR. pose proof HR as (H1 & H2 & r & H3 & H4). unfold c_offsets_get. rewrite Hf. unfold in_array in Hf.
  destruct (H2 (Z.to_nat f) ltac:(lia)) as [w Hw]. exists w. split; [exact Hw|]. cbn [catch ret]. destruct (as_num w =? offsetInMap); cbn [negb]; [|cbn; reflexivity].
  exists (Ptr r). split; [exact H3|]. cbn [as_ref catch ret]. destruct r as [l|]; [|cbn; reflexivity]. destruct (H4 l eq_refl) as [w2 Hw2]. exists w2. split; [exact Hw2|cbn; reflexivity].
Qed.
Lemma twp_upd G n o s bs reps f x : in_array n f = true -> ready G n o -> bytes_at G s bs ->
  twp G (if is_repeated reps f then let! (_, ok) := c_offsets_get n o f in if (ok : bool) then ret tt else c_offsets_set n o f x else c_offsets_set n o f x)
    (fun _ r G' => r = Ok tt /\ ready G' n o /\ bytes_at G' s bs).
Proof.
  intros Hf HR Hb.
  assert (H1 : twp G (if is_repeated reps f then let! (_, ok) := c_offsets_get n o f in if (ok : bool) then ret tt else c_offsets_set n o f x else c_offsets_set n o f x)
    (fun _ _ G' => ready G' n o)).
  { destruct (is_repeated reps f); [|apply twp_set; assumption]. apply twp_bind. eapply twp_mono; [apply twp_get; eassumption|]. cbv beta. intros k r G' ->.
    destruct r as [[y ok]| | |]; try exact HR. destruct ok; [exact HR|]. apply (twp_set G n o f x Hf HR). }
  eapply twp_mono; [apply (twp_and _ _ _ _ H1 (cwp_upd_ok G n o reps f x))|]. cbv beta. rewrite Hf. intros k r G' (HR' & _ & HK & ->).
  split; [reflexivity|]. split; [exact HR'|]. eapply bytes_kept; [exact HK|apply of_struct_bytes|exact Hb].
Qed.
Lemma twp_zero n o s bs k : forall i G, (i + k <= n)%nat -> ready G n o -> bytes_at G s bs -> twp G (c_zero k i o) (fun _ r G' => r = Ok tt /\ ready G' n o /\ bytes_at G' s bs).
Proof.
  induction k as [|k IH]; intros i G Hi HR Hb; cbn [c_zero]; [cbn; auto|]. apply twp_store; [apply HR; lia|].
  apply IH; [lia|apply ready_store; [discriminate|exact HR]|]. eapply bytes_kept; [apply (kept_insert (of_struct o)); left; eauto|apply of_struct_bytes|exact Hb].
Qed.
Lemma twp_clear G n o s bs : ready G n o -> bytes_at G s bs -> twp G (c_clear n o) (fun _ r G' => r = Ok tt /\ ready G' n o /\ bytes_at G' s bs).
Proof.
  intros HR Hb. unfold c_clear. apply twp_bind. eapply twp_mono; [apply (twp_zero n o s bs n 0 G ltac:(lia) HR Hb)|]. cbv beta. intros k r G' (-> & HR' & Hb').
  pose proof HR' as (_ & _ & t & H3 & H4). exists (Ptr t). split; [exact H3|]. cbn [as_ref catch]. destruct t as [l|]; [|cbn; auto].
  destruct (H4 l eq_refl) as [w Hw]. exists w. split; [exact Hw|]. split; [eauto|]. cbn. split; [reflexivity|]. split; [apply ready_store; [discriminate|exact HR']|].
  eapply bytes_kept; [apply (kept_insert (of_struct o)); right; right; eauto|apply of_struct_bytes|exact Hb'].
Qed.

(** Reading. *)
Lemma twp_uvarint_loop G a bs : forall pos i x s,
  (forall j z, bs !! j = Some z -> G !! Byte a (pos + Z.of_nat j) = Some (Num z)) ->
  twp G (c_uvarint_loop (length bs) a pos i x s) (fun k r G' => G' = G /\ r = Ok (uvarint_loop bs i x s) /\ k = ulen bs).
Proof.
  induction bs as [|b bs IH]; intros pos i x s Hb; cbn [length c_uvarint_loop].
  - cbn. auto.
  - pose proof (Hb 0%nat b eq_refl) as H0. rewrite Z.add_0_r in H0. exists (Num b). split; [exact H0|]. cbn [as_num uvarint_loop ulen catch ret]. destruct (b <? 128).
    + destruct ((9 <? i) || ((i =? 9) && (1 <? b))); cbn; auto.
    + eapply twp_mono; [apply IH|].
      * intros j z Hj. replace (pos + 1 + Z.of_nat j) with (pos + Z.of_nat (S j)) by lia. apply Hb. exact Hj.
      * cbv beta. intros k r G' (-> & -> & ->). auto.
Qed.
Lemma twp_uvarint G s bs : bytes_at G s bs ->
  twp G (c_uvarint s) (fun k r G' => G' = G /\ r = Ok (uvarint bs) /\ k = ulen bs).
Proof.
  intros Hb. destruct s as [s|]; cbn [c_uvarint bytes_at] in *.
  - destruct Hb as [Hl Hb]. replace (Z.to_nat (slen s)) with (length bs) by (unfold zlen in Hl; lia). apply twp_uvarint_loop, Hb.
  - subst bs. cbn. auto.
Qed.
Lemma twp_fieldDataSize G typ b bs : bytes_at G b bs -> typ = 0 \/ typ = 2 ->
  twp G (c_fieldDataSize typ b) (fun k r G' => G' = G /\ r = fieldDataSize typ bs /\ k = ulen bs).
Proof.
  intros Hb [-> | ->]; unfold c_fieldDataSize, fieldDataSize; cbn [Z.eqb WireVarint WireFixed32 WireFixed64 WireBytes].
  - change (0 =? WireVarint) with true. apply twp_bind. eapply twp_mono; [apply twp_uvarint, Hb|]. cbv beta. intros k r G' (-> & -> & ->). destruct (uvarint bs) as [x n]. cbn. rewrite Nat.add_0_r. auto.
  - change (2 =? WireVarint) with false. change (2 =? WireFixed32) with false. change (2 =? WireFixed64) with false. change (2 =? WireBytes) with true. cbv iota.
    apply twp_bind. eapply twp_mono; [apply twp_uvarint, Hb|]. cbv beta. intros k r G' (-> & -> & ->). destruct (uvarint bs) as [x n].
    destruct (n =? 0); cbn; rewrite Nat.add_0_r; auto.
Qed.

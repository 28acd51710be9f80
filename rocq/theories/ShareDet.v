(** * Programs over shared memory: the machine is deterministic

    Given what the allocator chooses, an action has at most one outcome. *)
From Verif Require Import VarintFacts RecFacts Heap HeapApi Core HeapFacts HeapSet HeapExec HeapAlloc HeapStable GetFacts ScanFacts FindFacts.
From Verif Require Import Spec SpecScan SpecFind SpecPos SpecMem Core6 ApiFacts OffsetsFacts PosFacts HeapEffect P_Find P_Pos P_Effect StretchFacts P_Beyond.
From Verif Require Import SpecShare Share ShareFacts ShareArg ShareCore ShareRel ShareSane.
From Coq Require Import ZifyBool.

(** ** Walks *)
Section Walks.
Context (n : Z) (bs : list Z) (Hbs : Forall is_byte bs).

Lemma at_bytes i : Forall is_byte (at_pos bs i).
Proof using Hbs. apply Forall_drop, Hbs. Qed.

Lemma reads_det b v k v' k' : Forall is_byte b -> reads_varint b v k -> reads_varint b v' k' -> v = v' /\ k = k'.
Proof. intros Hb H1 H2. eapply varint_at_det; [exact Hb|left; exact H1|left; exact H2]. Qed.

Lemma reads_not_cut b v k : reads_varint b v k -> cut_varint b -> False.
Proof.
  intros Hr Hc. assert (Hb : Forall is_byte b) by (eapply Forall_impl; [exact Hc|]; unfold is_byte; intros; cbn in *; lia).
  apply (reads_uvarint b v k Hb) in Hr as [E Hk]. apply (cut_uvarint b Hb) in Hc. rewrite E in Hc. cbn in Hc. contradiction.
Qed.

Lemma moves_det t b s s' : Forall is_byte b -> moves t b s -> moves t b s' -> s = s'.
Proof.
  intros Hb H1 H2. inversion H1 as [? v k R1|?|? len k R1|?]; subst; inversion H2 as [? v' k' R2|?|? len' k' R2|?]; subst; try reflexivity;
    destruct (reads_det _ _ _ _ _ Hb R1 R2) as [-> ->]; reflexivity.
Qed.

Lemma tag_det i tag p tag' p' : tag_at bs i tag p -> tag_at bs i tag' p' -> tag = tag' /\ p = p'.
Proof using Hbs.
  intros (_ & k & R1 & -> & _) (_ & k' & R2 & -> & _). destruct (reads_det _ _ _ _ _ (at_bytes i) R1 R2) as [-> ->]. auto.
Qed.

Lemma hop_det i f p j f' p' j' : hop bs i f p j -> hop bs i f' p' j' -> f = f' /\ p = p' /\ j = j'.
Proof using Hbs.
  intros (tag & s & T1 & _ & -> & M1 & _ & ->) (tag' & s' & T2 & _ & -> & M2 & _ & ->). destruct (tag_det _ _ _ _ _ T1 T2) as [<- <-].
  rewrite (moves_det _ _ _ _ (at_bytes p) M1 M2). auto.
Qed.

(** Where a walk cannot go on. *)
Definition stuck_at (i : Z) : Prop := forall f p j, hop bs i f p j -> f < n -> False.

Lemma stuck_end : stuck_at (Z.of_nat (length bs)).
Proof. intros f p j (tag & s & (H & _) & _) _. lia. Qed.

Lemma early_tag_at i l : ends_early n bs i l -> forall tag p, tag_at bs i tag p ->
  (tag mod 8 = 0 \/ tag mod 8 = 2) /\ cut_varint (at_pos bs p) \/ exists s, moves (tag mod 8) (at_pos bs p) s /\ signed64 s = 0.
Proof using Hbs.
  intros He tag p (Hi & k & R & -> & Hk). destruct He as [|Hi2 Hc|tag2 k2 Hi2 R2 Hk2|tag2 p2 T2 Hp2 Hf2 Hw2 Hc2|tag2 p2 s2 T2 Hp2 Hf2 M2 Hs2].
  - lia.
  - exfalso. eapply reads_not_cut; eassumption.
  - exfalso. destruct (reads_det _ _ _ _ _ (at_bytes i) R R2) as [-> ->]. lia.
  - left. destruct (tag_det _ _ _ _ _ T2 (conj Hi (ex_intro _ k (conj R (conj eq_refl Hk))))) as [-> ->]. auto.
  - right. destruct (tag_det _ _ _ _ _ T2 (conj Hi (ex_intro _ k (conj R (conj eq_refl Hk))))) as [-> ->]. eauto.
Qed.

Lemma moves_cut t b s : moves t b s -> t = 0 \/ t = 2 -> cut_varint b -> False.
Proof. intros [? v k R|?|? len k R|?] Ht Hc; try lia; eapply reads_not_cut; eassumption. Qed.

Lemma stuck_early i l : ends_early n bs i l -> stuck_at i.
Proof using Hbs.
  intros He f p j (tag & s & T & _ & _ & M & Hs & _) _. destruct (early_tag_at _ _ He _ _ T) as [[Hw Hc]|(s2 & M2 & Hs2)].
  - eapply moves_cut; eassumption.
  - rewrite (moves_det _ _ _ _ (at_bytes p) M2 M) in Hs2. contradiction.
Qed.

Lemma stuck_fails i : fails n bs i -> stuck_at i.
Proof using Hbs.
  intros Hf f p j (tag & s & T & Hp & -> & M & Hs & _) Hn. destruct Hf as [H|tag2 p2 T2 H|tag2 p2 T2 H|tag2 p2 T2 H0 H1 H2 H5].
  - destruct T as [? _]. lia.
  - destruct (tag_det _ _ _ _ _ T T2) as [<- <-]. lia.
  - destruct (tag_det _ _ _ _ _ T T2) as [<- <-]. lia.
  - destruct (tag_det _ _ _ _ _ T T2) as [<- <-]. inversion M; congruence.
Qed.

Lemma early_det i l l' : ends_early n bs i l -> ends_early n bs i l' -> l = l'.
Proof using Hbs.
  intros H1 H2.
  assert (Hr : forall l, ends_early n bs i l -> l = [] /\ (forall tag p, tag_at bs i tag p -> False) \/ exists tag p, tag_at bs i tag p /\ l = [(tag / 8, p)]).
  { clear l l' H1 H2. intros l [H|Hi Hc|tag k Hi R H|tag p T _ _ _ _|tag p s T _ _ _ _]; [left..|right|right]; eauto; (split; [reflexivity|]); intros tag2 p2 (Hi2 & k2 & R2 & -> & Hk).
    - lia. - eapply reads_not_cut; eassumption. - destruct (reads_det _ _ _ _ _ (at_bytes i) R R2) as [-> ->]. lia. }
  destruct (Hr _ H1) as [[-> G1]|(tag & p & T & ->)], (Hr _ H2) as [[-> G2]|(tag' & p' & T' & ->)]; try reflexivity.
  - destruct (G1 _ _ T'). - destruct (G2 _ _ T). - destruct (tag_det _ _ _ _ _ T T') as [-> ->]. reflexivity.
Qed.

Lemma early_not_end l : ends_early n bs (Z.of_nat (length bs)) l -> False.
Proof. intros [H|H _|tag k H _ _|tag p [H _] _ _ _ _|tag p s [H _] _ _ _ _]; lia. Qed.
Lemma fails_not_end : fails n bs (Z.of_nat (length bs)) -> False.
Proof. intros [H|tag p [H _] _|tag p [H _] _|tag p [H _] _ _ _ _]; lia. Qed.
Lemma fails_not_early i l : ends_early n bs i l -> fails n bs i -> False.
Proof using Hbs.
  intros He Hf. destruct Hf as [H|tag2 p2 T2 H|tag2 p2 T2 H|tag2 p2 T2 H0 H1 H2 H5].
  - destruct He as [|? _|? ? ? _ _|? ? [? _] _ _ _ _|? ? ? [? _] _ _ _ _]; lia.
  - destruct He as [|? Hc|? ? ? R Hk|? ? T G _ _ _|? ? ? T G _ _ _].
    + destruct T2 as [? _]. lia.
    + destruct T2 as (_ & k & R & _). eapply reads_not_cut; eassumption.
    + destruct T2 as (_ & k' & R' & -> & Hk'). destruct (reads_det _ _ _ _ _ (at_bytes i) R R') as [-> ->]. lia.
    + destruct (tag_det _ _ _ _ _ T T2) as [<- <-]. lia.
    + destruct (tag_det _ _ _ _ _ T T2) as [<- <-]. lia.
  - destruct He as [|? Hc|? ? ? R Hk|? ? T _ G _ _|? ? ? T _ G _ _].
    + destruct T2 as [? _]. lia.
    + destruct T2 as (_ & k & R & _). eapply reads_not_cut; eassumption.
    + destruct T2 as (_ & k' & R' & -> & Hk'). destruct (reads_det _ _ _ _ _ (at_bytes i) R R') as [-> ->]. lia.
    + destruct (tag_det _ _ _ _ _ T T2) as [<- <-]. lia.
    + destruct (tag_det _ _ _ _ _ T T2) as [<- <-]. lia.
  - destruct (early_tag_at _ _ He _ _ T2) as [[[?|?] _]|(s & M & _)]; try contradiction. inversion M; congruence.
Qed.

Lemma walk_both i l j : walk n bs i l j -> forall l' j', walk n bs i l' j' ->
  (exists m, l' = l ++ m /\ walk n bs j m j') \/ (exists m, l = l' ++ m /\ walk n bs j' m j).
Proof using Hbs.
  induction 1 as [i|i f p j l k Hh Hf Hw IH]; intros l' j' Hw'; [left; exists l'; auto|].
  inversion Hw' as [|i2 f2 p2 j2 l2 k2 Hh2 Hf2 Hw2]; subst; [right; eexists; split; [reflexivity|econstructor; eassumption]|].
  destruct (hop_det _ _ _ _ _ _ _ Hh Hh2) as (-> & -> & ->). destruct (IH _ _ Hw2) as [(m & -> & Hm)|(m & -> & Hm)]; [left|right]; exists m; auto.
Qed.

Lemma walk_stuck i l j l' j' : walk n bs i l j -> walk n bs i l' j' -> stuck_at j -> stuck_at j' -> l = l' /\ j = j'.
Proof using Hbs.
  intros H1 H2 S1 S2. destruct (walk_both _ _ _ H1 _ _ H2) as [(m & -> & Hm)|(m & -> & Hm)].
  - inversion Hm as [|? ? ? ? ? ? Hh Hf _]; subst; [rewrite app_nil_r; auto|]. destruct (S1 _ _ _ Hh Hf).
  - inversion Hm as [|? ? ? ? ? ? Hh Hf _]; subst; [rewrite app_nil_r; auto|]. destruct (S2 _ _ _ Hh Hf).
Qed.

Lemma walk_pump x l k : walk n bs x l x -> exists m, walk n bs x m x /\ length m = (k * length l)%nat.
Proof.
  intros Hw. induction k as [|k (m & Hm & E)]; [exists []; split; [constructor|reflexivity]|]. exists (l ++ m). split; [eapply walk_app; eassumption|]. rewrite app_length, E. reflexivity.
Qed.

Lemma loop_not_stuck x l1 l2 l j : walk n bs 0 l1 x -> walk n bs x l2 x -> l2 <> [] -> walk n bs 0 l j -> stuck_at j -> False.
Proof using Hbs.
  intros H1 H2 Hne Hw Hs. destruct (walk_pump x l2 (S (length l)) H2) as (m & Hm & E). pose proof (walk_app _ _ _ _ _ _ _ H1 Hm) as Hall.
  assert (0 < length l2)%nat by (destruct l2; cbn; [contradiction|lia]).
  destruct (walk_both _ _ _ Hw _ _ Hall) as [(m2 & E2 & Hm2)|(m2 & E2 & _)].
  - apply (f_equal length) in E2. rewrite !app_length, E in E2. inversion Hm2 as [|? ? ? ? ? ? Hh Hf _]; subst; [cbn in E2; nia|]. destruct (Hs _ _ _ Hh Hf).
  - apply (f_equal length) in E2. rewrite !app_length, E in E2. nia.
Qed.
End Walks.

(** ** Mutations *)
Lemma occupies_det T bs p k k' : Forall is_byte bs -> occupies T bs p k -> occupies T bs p k' -> k = k'.
Proof.
  intros Hb H1 H2. assert (Hd : Forall is_byte (at_pos bs p)) by (apply Forall_drop, Hb).
  inversion H1 as [v1 n1 T1 V1 E1|T1 E1|T1 E1|len1 n1 T1 V1 E1]; inversion H2 as [v2 n2 T2 V2|T2|T2|len2 n2 T2 V2]; try congruence;
    destruct (varint_at_det _ _ _ _ _ Hd V1 V2) as [? ?]; subst; auto.
Qed.

Lemma encodes_det f w tb db tb' db' : encodes f w tb db -> encodes f w tb' db' -> tb = tb' /\ db = db'.
Proof. intros H1 [H2 H3]. destruct (enc_unique _ _ _ _ _ _ H1 H2 H3) as [-> ->]. auto. Qed.

Section Sets.
Context (T : ptype) (f : Z) (v : pval) (s : pstate) (W : list Z) (Hb : Forall is_byte (pbytes s)).

Ltac same :=
  repeat match goal with
  | H1 : encodes ?f ?w ?tb ?db, H2 : encodes ?f ?w ?tb' ?db' |- _ =>
      let E1 := fresh in let E2 := fresh in destruct (encodes_det _ _ _ _ _ _ H1 H2) as [E1 E2]; clear H2; try subst tb'; try subst db'
  | H1 : pieces ?f ?w ?tb ?lb ?x, H2 : pieces ?f ?w ?tb' ?lb' ?x' |- _ =>
      let E1 := fresh in let E2 := fresh in let E3 := fresh in destruct (pieces_unique _ _ _ _ _ _ _ _ H1 H2) as (E1 & E2 & E3); clear H2; try subst tb'; try subst lb'; try subst x'
  | H1 : ppos s f = Some ?p, H2 : ppos s f = Some ?p' |- _ =>
      let E := fresh in assert (E : p' = p) by congruence; clear H2; try subst p'
  | H1 : occupies ?T ?b ?p ?k, H2 : occupies ?T ?b ?p ?k' |- _ =>
      let E := fresh in pose proof (occupies_det _ _ _ _ _ Hb H1 H2) as E; clear H2; try subst k'
  end.

Lemma sets_det r r' : sets T f v s r -> sets T f v s r' -> r = r'.
Proof using Hb.
  intros H1 H2. destruct H1, H2; same; subst; try congruence; try lia; try reflexivity.
Qed.

Lemma leaves_det W1 b1 W2 b2 : leaves T f v s W W1 b1 -> leaves T f v s W W2 b2 -> W1 = W2 /\ b1 = b2.
Proof using Hb. intros H1 H2. destruct H1, H2; same; subst; try congruence; try lia; auto. Qed.

Lemma leaves_stretched_det W1 b1 W2 b2 : leaves_stretched T f v s W W1 b1 -> leaves_stretched T f v s W W2 b2 -> W1 = W2 /\ b1 = b2.
Proof using Hb. intros H1 H2. destruct H1, H2; same; subst; try congruence; try lia; auto. Qed.

Lemma stretches_det r r' : stretches T f v s W r -> stretches T f v s W r' -> r = r'.
Proof using Hb. intros H1 H2. destruct H1, H2; same; subst; try congruence; try lia; auto. Qed.
End Sets.

Lemma appends_det f x s r r' : appends f x s r -> appends f x s r' -> r = r'.
Proof.
  intros H1 H2. destruct H1 as [tb db He Hp|p tb db He Hp], H2 as [tb' db' He' Hp'|p' tb' db' He' Hp']; try congruence;
    destruct (encodes_det _ _ _ _ _ _ He He') as [<- <-]; reflexivity.
Qed.
Lemma leaves_append_det f x s W W1 b1 W2 b2 : leaves_append f x s W W1 b1 -> leaves_append f x s W W2 b2 -> W1 = W2 /\ b1 = b2.
Proof. intros [tb lb H1] [tb' lb' H2]. destruct (pieces_unique _ _ _ _ _ _ _ _ H1 H2) as (-> & -> & _). auto. Qed.

Lemma put_back_det c A s W bs stay A1 s1 A2 s2 : put_back c A s W bs stay A1 s1 -> put_back c A s W bs stay A2 s2 -> A1 = A2 /\ s1 = s2.
Proof. intros H1 H2. destruct H1; inversion H2; subst; auto. Qed.

Lemma setting_det c A o f T v r r' : good A -> sane_obj A o -> setting c A o f T v r -> setting c A o f T v r' -> r = r'.
Proof.
  intros HG Ho H1 H2. destruct (state_facts A o HG Ho) as (Hb & _).
  pose proof (sets_det T f v (state_of A o) Hb) as Dset. pose proof (leaves_det T f v (state_of A o) (cells A (o_buf o)) Hb) as Dlv.
  pose proof (stretches_det T f v (state_of A o) (cells A (o_buf o)) Hb) as Dst. pose proof (leaves_stretched_det T f v (state_of A o) (cells A (o_buf o)) Hb) as Dls.
  destruct H1 as [s1 W1 st1 A1 b1 R1 L1 P1|s1 W1 st1 A1 b1 R1 S1 D1 L1 P1|R1|R1 S1|s1 g1 q1 R1 S1 G1 Q1 K1],
    H2 as [s2 W2 st2 A2 b2 R2 L2 P2|s2 W2 st2 A2 b2 R2 S2 D2 L2 P2|R2|R2 S2|s2 g2 q2 R2 S2 G2 Q2 K2]; pose proof (Dset _ _ R1 R2) as E; try discriminate; try reflexivity.
  - injection E as <-. destruct (Dlv _ _ _ _ L1 L2) as [<- <-]. destruct (put_back_det _ _ _ _ _ _ _ _ _ _ P1 P2) as [<- <-]. reflexivity.
  - pose proof (Dst _ _ S1 S2) as E2. injection E2 as <-. destruct (Dls _ _ _ _ L1 L2) as [<- <-]. destruct (put_back_det _ _ _ _ _ _ _ _ _ _ P1 P2) as [<- <-]. reflexivity.
  - pose proof (Dst _ _ S1 S2). discriminate.
  - exfalso. pose proof (Dst _ _ S1 S2) as E2. injection E2 as <-. specialize (D1 _ _ G2 Q2). lia.
  - pose proof (Dst _ _ S1 S2). discriminate.
  - pose proof (Dst _ _ S1 S2). discriminate.
  - exfalso. pose proof (Dst _ _ S1 S2) as E2. injection E2 as <-. specialize (D2 _ _ G1 Q1). lia.
  - pose proof (Dst _ _ S1 S2). discriminate.
Qed.

Lemma pieces_encodes f x tb lb : Forall is_byte x -> pieces f (WBytes x) tb lb x -> encodes f (WBytes x) tb (lb ++ x).
Proof. intros Hx Hpc. exact (pieces_canonical _ _ _ _ _ Hpc ltac:(intros y [= <-]; exact Hx)). Qed.

Lemma reads_arg_det A o f a x x' : good A -> sane_obj A o -> fits A a -> reads_arg A o f a x -> reads_arg A o f a x' -> x = x'.
Proof.
  intros HG Ho Ha H1 H2. destruct (state_facts A o HG Ho) as (Hb & _). pose proof (good_bytes _ _ HG Ha) as Hx. set (y := bytes_in A a) in *.
  assert (Hnever : forall tb lb, sets PBytes f (VBytes (Some y)) (state_of A o) OFault \/ stretches PBytes f (VBytes (Some y)) (state_of A o) (cells A (o_buf o)) None ->
    pieces f (WBytes y) tb lb y -> exists p, ppos (state_of A o) f = Some p /\ (plen (state_of A o) < p \/ p <= plen (state_of A o) /\
      exists k, occupies PBytes (pbytes (state_of A o)) p k /\ let b := p - Z.of_nat (length tb) in let e := p + k in
        k <> Z.of_nat (length (lb ++ y)) /\ (b < 0 \/ e < 0 \/ plen (state_of A o) < e) \/
        0 <= e < b /\ Z.of_nat (length (cells A (o_buf o))) < plen (state_of A o) + (b - e))).
  { intros tb lb Hn Hpc. pose proof (pieces_encodes _ _ _ _ Hx Hpc) as He. destruct Hn as [Hn|Hn].
    - inversion Hn as [| | | |p k tb' db' b e He' Hp Hple Hk Hne Eb Ee Hf|p Hp Hf]; subst; (exists p; split; [exact Hp|]); [right|left; exact Hf].
      destruct (encodes_det _ _ _ _ _ _ He He') as [<- <-]. split; [exact Hple|]. exists k. split; [exact Hk|]. left. auto.
    - inversion Hn as [|p k tb' lb' x3 b e Hpc' Hp Hple Hk Eb Ee Hbe Hr]; subst. cbn [wire_of] in Hpc'. destruct (pieces_unique _ _ _ _ _ _ _ _ Hpc Hpc') as (-> & -> & ->).
      exists p. split; [exact Hp|]. right. split; [exact Hple|]. exists k. split; [exact Hk|]. right. auto. }
  assert (Hover : forall q k k', occupies PBytes (pbytes (state_of A o)) q k -> occupies PBytes (pbytes (state_of A o)) q k' -> k = k') by (intros q k k0; apply occupies_det, Hb).
  destruct H1 as [tb lb ? ? P1 Q1|p tb lb ? ? P1 Q1 L1 K1|p k tb lb b e n ? ? P1 Q1 L1 K1 N1 Eb1 Ee1 B1 E1 En1|p k tb lb b e d n ? ? P1 Q1 L1 K1 Eb1 Ee1 B1 Ed1 R1 En1|? N1],
    H2 as [tb' lb' ? ? P2 Q2|p' tb' lb' ? ? P2 Q2 L2 K2|p' k' tb' lb' b' e' n' ? ? P2 Q2 L2 K2 N2 Eb2 Ee2 B2 E2 En2|p' k' tb' lb' b' e' d' n' ? ? P2 Q2 L2 K2 Eb2 Ee2 B2 Ed2 R2 En2|? N2];
    repeat match goal with v := _ |- _ => subst v end;
    try match goal with H1 : pieces _ _ ?t1 ?l1 _, H2 : pieces _ _ ?t2 ?l2 _ |- _ => destruct (pieces_unique _ _ _ _ _ _ _ _ H1 H2) as (-> & -> & _) end;
    try match goal with H1 : ppos ?s f = Some ?p, H2 : ppos ?s f = Some ?p' |- _ => assert (p' = p) by (clear -H1 H2; congruence); subst p' end;
    try match goal with H1 : occupies _ _ ?p ?k, H2 : occupies _ _ ?p ?k' |- _ => pose proof (Hover _ _ _ H1 H2) end;
    try (exfalso; match goal with Hn : _ \/ stretches _ _ _ _ _ _, Hp : pieces _ _ ?tb ?lb _ |- _ => destruct (Hnever tb lb Hn Hp) as (q & Hq & Hc) end;
         match goal with H1 : ppos ?s f = ?u, H2 : ppos ?s f = ?w |- _ => assert (HEq : u = w) by (clear -H1 H2; congruence); clear H2; first [discriminate HEq|injection HEq as HEq] end;
         subst; destruct Hc as [Hc|(Hc1 & kk & Hkk & Hc)]; try lia;
         match goal with H1 : occupies _ _ ?p ?k, H2 : occupies _ _ ?p ?k' |- _ => pose proof (Hover _ _ _ H1 H2) end; cbv zeta in Hc; lia);
    try (exfalso; congruence); try (subst; exfalso; lia); subst; reflexivity.
Qed.

Lemma slice_det c A o f a r r' : good A -> sane_obj A o -> fits A a -> setting_slice c A o f a r -> setting_slice c A o f a r' -> r = r'.
Proof.
  intros HG Ho Ha (x & X1 & H1) (x' & X2 & H2). rewrite <- (reads_arg_det _ _ _ _ _ _ HG Ho Ha X1 X2) in H2. eapply setting_det; eassumption.
Qed.

Lemma appending_det c A o f a r r' : appending c A o f a r -> appending c A o f a r' -> r = r'.
Proof.
  intros [tb lb x s1 W1 st1 A1 b1 Hp Ex R1 L1 P1] [tb' lb' x' s2 W2 st2 A2 b2 Hp' Ex' R2 L2 P2]. destruct (pieces_unique _ _ _ _ _ _ _ _ Hp Hp') as (-> & -> & _).
  rewrite <- Ex in Ex'. subst x'. pose proof (appends_det _ _ _ _ _ R1 R2) as E. injection E as <-.
  destruct (leaves_append_det _ _ _ _ _ _ _ _ L1 L2) as [<- <-]. destruct (put_back_det _ _ _ _ _ _ _ _ _ _ P1 P2) as [<- <-]. reflexivity.
Qed.

(** ** Queries *)
Lemma gets_det T s f g g' : Forall is_byte (pbytes s) -> gets T s f g -> gets T s f g' -> g = g'.
Proof.
  intros Hb H1 H2. destruct H1 as [P1|p g P1 L1 O1|p P1 L1 W1|p P1 L1 W1], H2 as [P2|p2 g2 P2 L2 O2|p2 P2 L2 W2|p2 P2 L2 W2];
    try congruence; try (assert (p2 = p) by congruence; subst p2; lia). assert (p2 = p) by congruence. subst p2. eapply obtains_det; eassumption.
Qed.

Lemma gets_in_det T s W f g g' : Forall is_byte (pbytes s) -> Forall is_byte W -> gets_in T s W f g -> gets_in T s W f g' -> g = g'.
Proof.
  intros Hb HW H1 H2. destruct H1 as [v G1|G1|p v G1 P1 O1|p G1 P1 O1], H2 as [v2 G2|G2|p2 v2 G2 P2 O2|p2 G2 P2 O2];
    pose proof (gets_det _ _ _ _ _ Hb G1 G2) as E; try congruence;
    (assert (p2 = p) by congruence; subst p2; pose proof (obtains_det _ _ _ _ _ HW O1 O2); congruence).
Qed.

Lemma gets_slice_det A o f r r' : good A -> fits A (o_buf o) -> gets_slice A o f r -> gets_slice A o f r' -> r = r'.
Proof.
  intros HG Hf H1 H2. pose proof (good_bytes _ _ HG Hf) as Hb.
  destruct H1 as [P1|p t len n lo hi P1 L1 B1 V1 Elo Ehi R1|p t len n lo hi P1 L1 B1 V1 Elo Ehi R1|p P1 L1],
    H2 as [P2|p2 t2 len2 n2 lo2 hi2 P2 L2 B2 V2 Elo2 Ehi2 R2|p2 t2 len2 n2 lo2 hi2 P2 L2 B2 V2 Elo2 Ehi2 R2|p2 P2 L2]; try congruence;
    (assert (p2 = p) by congruence; subst p2; try lia; try reflexivity); assert (t2 = t) by congruence; subst t2;
    (assert (Hd : Forall is_byte (at_pos (bytes_in A (o_buf o)) p)) by (apply Forall_drop, Hb));
    destruct (varint_at_det _ _ _ _ _ Hd V1 V2) as [<- <-]; subst; try reflexivity; contradiction.
Qed.

Lemma element_det W x hi x' hi' : Forall is_byte W -> element W x hi -> element W x' hi' -> x = x' /\ hi = hi'.
Proof. intros HW [len n h1 A1 A2 A3 A4] [len' n' h2 B1 B2 B3 B4]. destruct (varint_at_det W _ _ _ _ HW A1 B1) as [<- <-]. subst. auto. Qed.
Lemma element_not_beyond W x hi : Forall is_byte W -> element W x hi -> element_beyond W -> False.
Proof. intros HW [len n h1 A1 A2 A3 A4] (len' & n' & h2 & B1 & B2 & B3 & B4). destruct (varint_at_det W _ _ _ _ HW A1 B1) as [<- <-]. subst. lia. Qed.

Lemma next_in_det f b W r r' : Forall is_byte b -> Z.of_nat (length b) < 2 ^ 62 -> Forall is_byte W -> next_in f b W r -> next_in f b W r' -> r = r'.
Proof.
  intros Hb Hl HW H1 H2. destruct H1 as [r N1 G1|x hi N1 E1|N1 E1], H2 as [r2 N2 G2|x2 hi2 N2 E2|N2 E2]; pose proof (next_det f b Hb Hl _ _ N1 N2) as E; try congruence.
  - destruct (element_det _ _ _ _ _ HW E1 E2) as [-> _]. reflexivity.
  - destruct (element_not_beyond _ _ _ HW E1 E2).
  - destruct (element_not_beyond _ _ _ HW E2 E1).
Qed.

(** How Decode ends. *)
Inductive dec_ends (n : Z) (bs : list Z) : nat -> list (Z * Z) -> Prop :=
| dec_all l : walk n bs 0 l (Z.of_nat (length bs)) -> dec_ends n bs 0 l
| dec_part l j l2 : walk n bs 0 l j -> ends_early n bs j l2 -> dec_ends n bs 1 (l ++ l2)
| dec_fails l j : walk n bs 0 l j -> fails n bs j -> dec_ends n bs 2 []
| dec_loops x l1 l2 : walk n bs 0 l1 x -> walk n bs x l2 x -> l2 <> [] -> dec_ends n bs 3 [].

Lemma dec_ends_det n bs k l k' l' : Forall is_byte bs -> dec_ends n bs k l -> dec_ends n bs k' l' -> k = k' /\ l = l'.
Proof.
  intros Hb H1 H2.
  destruct H1 as [l1 W1|l1 j1 m1 W1 X1|l1 j1 W1 X1|x1 a1 b1 W1 X1 N1], H2 as [l2 W2|l2 j2 m2 W2 X2|l2 j2 W2 X2|x2 a2 b2 W2 X2 N2]; auto;
    try match goal with
    | W : walk n bs 0 ?l ?j, A : walk n bs 0 ?a ?x, B : walk n bs ?x ?b ?x, N : ?b <> [] |- _ =>
        exfalso; eapply (loop_not_stuck n bs Hb x a b l j A B N W); first [eapply stuck_early; eassumption|eapply stuck_fails; eassumption|apply stuck_end]
    end;
    try match goal with
    | W1 : walk n bs 0 ?l1 ?j1, W2 : walk n bs 0 ?l2 ?j2 |- _ =>
        let S1 := fresh in let S2 := fresh in
        assert (S1 : stuck_at n bs j1) by first [eapply stuck_early; eassumption|eapply stuck_fails; eassumption|apply stuck_end];
        assert (S2 : stuck_at n bs j2) by first [eapply stuck_early; eassumption|eapply stuck_fails; eassumption|apply stuck_end];
        destruct (walk_stuck n bs Hb _ _ _ _ _ W1 W2 S1 S2) as [? ?]; subst
    end; auto; try (exfalso; first [eapply early_not_end; eassumption|eapply fails_not_end; eassumption|eapply fails_not_early; eassumption]).
  rewrite (early_det n bs Hb _ _ _ X1 X2). auto.
Qed.

Lemma decodes_ends n reps bs r : decodes n reps bs r -> (r = OFault -> dec_ends n bs 2 []) /\ (r = OLoops -> dec_ends n bs 3 []).
Proof. destruct 1; split; try discriminate; intros _; econstructor; eassumption. Qed.

(** ** All actions *)
Theorem does_det c St a r r' : sane St -> does c St a r -> does c St a r' -> r = r'.
Proof.
  intros (HG & HH & HO) H1 H2.
  assert (Hheld : forall k s, sh_held St !! k = Some s -> fits (sh_arr St) s) by (intros k s; apply (Forall_lookup_1 _ _ _ _ HH)).
  assert (Hobj : forall i ob, sh_objs St !! i = Some ob -> sane_obj (sh_arr St) ob) by (intros i ob; apply (Forall_lookup_1 _ _ _ _ HO)).
  assert (Hnx : forall k t f r r', sh_held St !! k = Some (Some t) -> next_in f (bytes_in (sh_arr St) (Some t)) (cells (sh_arr St) (Some t)) r ->
    next_in f (bytes_in (sh_arr St) (Some t)) (cells (sh_arr St) (Some t)) r' -> r = r').
  { intros k t f q q' Hk. pose proof (Hheld _ _ Hk) as Hf. pose proof (fits_cap _ _ HG Hf) as Hc. pose proof (fits_bytes_len _ _ Hf) as Hl. cbn [extent hcap] in *.
    apply next_in_det; [apply good_bytes; assumption| |apply good_cells; assumption]. change (2 ^ 60) with 1152921504606846976 in Hc. change (2 ^ 62) with 4611686018427387904. lia. }
  destruct H1; inversion H2; subst; clear H2;
    repeat match goal with
    | E1 : sh_objs St !! ?i = Some ?o, E2 : sh_objs St !! ?i = Some ?o' |- _ => assert (o' = o) by (clear -E1 E2; congruence); clear E2; subst o'
    | E1 : sh_held St !! ?i = Some ?o, E2 : sh_held St !! ?i = Some ?o' |- _ => assert (o' = o) by (clear -E1 E2; congruence); clear E2; try subst o'
    | E : Some _ = Some _ |- _ => injection E as ?; subst
    end; try discriminate; try reflexivity; try congruence; try lia;
    try match goal with P1 : put_back _ _ _ _ _ _ _ _, P2 : put_back _ _ _ _ _ _ _ _ |- _ => destruct (put_back_det _ _ _ _ _ _ _ _ _ _ P1 P2) as [-> ->]; reflexivity end;
    try match goal with Ho : sh_objs St !! ?i = Some ?o, P1 : setting _ _ ?o _ _ _ ?r1, P2 : setting _ _ ?o _ _ _ ?r2 |- _ =>
    pose proof (setting_det _ _ _ _ _ _ _ _ HG (Hobj _ _ Ho) P1 P2) as HE; first [discriminate HE|injection HE as -> ->; reflexivity] end;
    try match goal with Ho : sh_objs St !! ?i = Some ?o, Ha : sh_held St !! ?k = Some ?a, P1 : setting_slice _ _ ?o _ ?a ?r1, P2 : setting_slice _ _ ?o _ ?a ?r2 |- _ =>
    pose proof (slice_det _ _ _ _ _ _ _ HG (Hobj _ _ Ho) (Hheld _ _ Ha) P1 P2) as HE; first [discriminate HE|injection HE as -> ->; reflexivity] end;
    try match goal with P1 : appending _ _ _ _ _ ?r1, P2 : appending _ _ _ _ _ ?r2 |- _ =>
    pose proof (appending_det _ _ _ _ _ _ _ P1 P2) as HE; first [discriminate HE|injection HE as -> ->; reflexivity] end;
    try match goal with Ho : sh_objs St !! ?i = Some ?o, P1 : gets_in _ _ _ _ ?r1, P2 : gets_in _ _ _ _ ?r2 |- _ =>
    destruct (state_facts _ _ HG (Hobj _ _ Ho)) as (Hb1 & Hb2 & _); pose proof (gets_in_det _ _ _ _ _ _ Hb1 Hb2 P1 P2) as HE; first [discriminate HE|injection HE as ->; reflexivity] end;
    try match goal with Ho : sh_objs St !! ?i = Some ?o, P1 : gets_slice _ _ _ ?r1, P2 : gets_slice _ _ _ ?r2 |- _ =>
    pose proof (gets_slice_det _ _ _ _ _ HG (proj1 (Hobj _ _ Ho)) P1 P2) as HE; first [discriminate HE|injection HE as ->; reflexivity] end;
    try match goal with Hk : sh_held St !! ?k = Some (Some ?t), P1 : next_in _ _ _ ?r1, P2 : next_in _ _ _ ?r2 |- _ =>
    pose proof (Hnx _ _ _ _ _ Hk P1 P2) as HE; try discriminate HE; try injection HE as ? ?; subst end;
    try match goal with Hk : sh_held St !! ?k = Some (Some ?t), V1 : SpecScan.varint_at ?b ?v ?m, V2 : SpecScan.varint_at ?b ?v' ?m' |- _ =>
    destruct (varint_at_det _ _ _ _ _ (good_bytes _ _ HG (Hheld _ _ Hk)) V1 V2) as [-> ->]; reflexivity end;
    try match goal with Hb : o_buf _ = Some _, Hx : extent (o_buf _) < _ |- _ => rewrite Hb in Hx; cbn [extent] in Hx; exfalso; assert (p = p0) by congruence; lia end;
    try match goal with Ho : sh_objs St !! ?i = Some ?o, Ha : sh_held St !! ?k = Some ?a |- _ =>
    pose proof (good_bytes _ _ HG (Hheld _ _ Ha)) as Hb; pose proof (fits_bytes_len _ _ (Hheld _ _ Ha)) as Hl;
    set (n := Z.of_nat (o_n o)) in *; set (bs := bytes_in (sh_arr St) a) in * ;
    repeat match goal with
    | W : walk n bs 0 ?l (extent a) |- _ => rewrite <- Hl in W; apply dec_all in W
    | W : walk n bs 0 ?l ?j, X : ends_early n bs ?j _ |- _ => pose proof (dec_part _ _ _ _ _ W X); clear W
    | X : decodes n _ bs OFault |- _ => apply decodes_ends, proj1 in X; specialize (X eq_refl)
    | X : decodes n _ bs OLoops |- _ => apply decodes_ends, proj2 in X; specialize (X eq_refl)
    end;
    match goal with X1 : dec_ends n bs _ _, X2 : dec_ends n bs _ _ |- _ => destruct (dec_ends_det _ _ _ _ _ _ Hb X1 X2) as [HE1 HE2]; first [discriminate HE1|rewrite HE2; reflexivity] end end.
  - pose proof (fits_cells_len _ _ (Hheld _ _ H)) as Hc. cbn [hcap] in Hc. lia.
  - pose proof (fits_cells_len _ _ (Hheld _ _ H)) as Hc. destruct s as [u|]; [|discriminate]. match goal with E : Some _ = Some _ |- _ => injection E as -> end. cbn [hcap] in Hc. lia.
Qed.

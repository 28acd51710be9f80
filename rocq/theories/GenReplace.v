(** * File names *)
From Verif Require Import Spec GoLang Gen GenLex GenPkg GenSpec.

Lemma strip_prefix_some p s r : Gen.strip_prefix p s = Some r <-> s = p +:+ r.
Proof.
  revert s. induction p as [|a p IH]; intros s; cbn [Gen.strip_prefix].
  - split; [intros [= ->]; done|intros ->; done].
  - destruct s as [|b s]; [split; [done|intros H; discriminate H]|]. destruct (Ascii.eqb_spec a b) as [->|Hne].
    + rewrite IH. split; [intros ->; done|intros H; injection H as H; done].
    + split; [done|]. intros H. injection H as H _. congruence.
Qed.
Lemma join_cons_char sep c p ps : join sep (String c p :: ps) = String c (join sep (p :: ps)).
Proof. destruct ps; done. Qed.
Lemma join_cons sep p ps : ps <> [] -> join sep (p :: ps) = p +:+ sep +:+ join sep ps.
Proof. destruct ps; done. Qed.
Lemma contains_cons p c s : contains p (String c s) -> (exists r, Gen.strip_prefix p (String c s) = Some r) \/ contains p s.
Proof.
  intros ([|a l] & b & E).
  - left. exists b. apply strip_prefix_some. done.
  - right. cbn in E. injection E as -> ->. exists l, b. done.
Qed.
Lemma first_prefix sep p ps : ps = [] \/ ps <> [] -> exists r, join sep (p :: ps) = p +:+ r.
Proof. destruct ps as [|q qs]; [exists ""; cbn; rewrite sapp_nil; done|]. intros _. eexists. rewrite join_cons by done. done. Qed.

Lemma replace_all_pieces old new : old <> "" -> forall n s, (String.length s < n)%nat ->
  exists ps, ps <> [] /\ s = join old ps /\ replace_all n old new s = join new ps /\ Forall (fun p => ~ contains old p) ps.
Proof.
  intros Hold. assert (Hempty : ~ contains old "").
  { intros (a & b & E). destruct a; [|done]. destruct old; done. }
  induction n as [|n IH]; intros s Hn; [lia|]. cbn [replace_all].
  destruct (Gen.strip_prefix old s) as [r|] eqn:E.
  - apply strip_prefix_some in E as ->. destruct (IH r) as (ps & Hne & E1 & E2 & E3).
    { rewrite slen_app in Hn. destruct old; [done|]. cbn in Hn. lia. }
    exists ("" :: ps). split; [done|]. split; [rewrite join_cons by done; rewrite <- E1; done|].
    split; [rewrite join_cons by done; rewrite <- E2; done|]. constructor; done.
  - destruct s as [|c s].
    + exists [""]. repeat split; try done. repeat constructor. done.
    + destruct (IH s) as (ps & Hne & E1 & E2 & E3); [cbn in Hn; lia|]. destruct ps as [|p ps]; [done|].
      exists (String c p :: ps). split; [done|]. rewrite !join_cons_char, <- E1, <- E2. split; [done|]. split; [done|].
      inversion E3 as [|? ? H1 H2]; subst. constructor; [|done]. intros H. apply contains_cons in H as [(r & H)|H]; [|done].
      apply strip_prefix_some in H. destruct (first_prefix old p ps) as (q & Eq); [destruct ps; auto|].
      assert (Gen.strip_prefix old (String c (join old (p :: ps))) = Some (r +:+ q)) as X; [|rewrite X in E; done].
      apply strip_prefix_some. rewrite Eq. change (String c (p +:+ q)) with (String c p +:+ q). rewrite H, sapp_assoc. done.
Qed.
Lemma ReplaceAll_renamed s : renamed s (ReplaceAll s ".proto" ".zeropb.go").
Proof.
  destruct (replace_all_pieces ".proto" ".zeropb.go" ltac:(done) (S (String.length s)) s ltac:(lia)) as (ps & H1 & H2 & H3 & H4).
  exists ps. done.
Qed.

(** ** Uniqueness *)

(** [sep] occurs in [p +:+ sep +:+ ...] first after [p] when no proper suffix of it is a
    prefix of it. *)
Definition unbordered (sep : string) : Prop :=
  forall a b c, a <> "" -> b <> "" -> sep = a +:+ b -> sep = b +:+ c -> False.
Lemma app_cases a b c d : a +:+ b = c +:+ d ->
  (exists r, c = a +:+ r /\ b = r +:+ d) \/ (exists r, a = c +:+ r /\ d = r +:+ b /\ r <> "").
Proof.
  revert c. induction a as [|x a IH]; intros c H.
  - left. exists c. done.
  - destruct c as [|y c].
    + right. exists (String x a). split; [done|]. split; [done|discriminate].
    + injection H as -> H. apply IH in H as [(r & -> & ->)|(r & -> & -> & Hr)]; [left|right]; eauto.
Qed.
Lemma sapp_inj a b c : a +:+ b = a +:+ c -> b = c.
Proof. induction a as [|x a IH]; [done|]. intros H. injection H as H. auto. Qed.
Lemma piece_first sep p q r s : unbordered sep -> ~ contains sep p -> ~ contains sep q ->
  p +:+ sep +:+ r = q +:+ sep +:+ s -> p = q /\ r = s.
Proof.
  intros Hu.
  assert (Hs : forall p q r s x, ~ contains sep q -> q = p +:+ x -> x <> "" -> sep +:+ r = x +:+ (sep +:+ s) -> False).
  { clear p q r s. intros p q r s x Hq -> Hx E. apply app_cases in E as [(y & -> & E)|(y & E & E' & Hy)].
    - apply Hq. exists p, y. done.
    - (* sep = x ++ y and sep ++ s = y ++ r *)
      symmetry in E'. apply app_cases in E' as [(z & E2 & E3)|(z & E2 & E3 & Hz)].
      + eapply (Hu x y z); try done.
      + (* sep is a prefix of y, so x is empty *)
        apply (f_equal String.length) in E, E2. rewrite slen_app in E, E2. destruct x; [done|]. cbn in E. lia. }
  intros Hp Hq E. apply app_cases in E as [(x & Hx & E)|(x & Hx & E & Hne)].
  - destruct x as [|c x].
    + cbn in E. apply sapp_inj in E. rewrite Hx, sapp_nil. done.
    + exfalso. eapply (Hs p q r s (String c x)); done.
  - exfalso. eapply (Hs q p s r x); done.
Qed.
Lemma join_unique sep : sep <> "" -> unbordered sep -> forall ps qs, ps <> [] -> qs <> [] ->
  Forall (fun p => ~ contains sep p) ps -> Forall (fun p => ~ contains sep p) qs -> join sep ps = join sep qs -> ps = qs.
Proof.
  intros Hne Hu. induction ps as [|p ps IH]; intros qs H1 H2 HP HQ E; [done|]. destruct qs as [|q qs]; [done|].
  inversion HP; subst. inversion HQ; subst. destruct (decide (ps = [])) as [->|Hps]; destruct (decide (qs = [])) as [->|Hqs].
  - cbn in E. subst. done.
  - exfalso. rewrite (join_cons sep q qs) in E by done. cbn [join] in E. match goal with H : ~ contains sep p |- _ => apply H end.
    exists q, (join sep qs). done.
  - exfalso. rewrite (join_cons sep p ps) in E by done. cbn [join] in E. match goal with H : ~ contains sep q |- _ => apply H end.
    exists p, (join sep ps). done.
  - rewrite !join_cons in E by done. apply piece_first in E as [-> E]; [|done..]. f_equal. auto.
Qed.
Lemma piece_contained sep ps p : p ∈ ps -> exists a b, join sep ps = a +:+ p +:+ b.
Proof.
  induction ps as [|q ps IH]; intros H; [apply elem_of_nil in H; done|]. apply elem_of_cons in H as [->|H].
  - destruct (first_prefix sep q ps) as (r & ->); [destruct ps; auto|]. exists "", r. done.
  - destruct (IH H) as (a & b & E). rewrite join_cons by (intros ->; apply elem_of_nil in H; done). rewrite E.
    exists (q +:+ sep +:+ a), b. rewrite !sapp_assoc. done.
Qed.
Lemma no_border : unbordered ".zeropb.go".
Proof.
  intros a b c Ha Hb E1 E2. destruct a as [|x a]; [done|]. cbn in E1. injection E1 as _ E1.
  repeat (destruct a as [|? a]; [cbn in E1; subst b; first [done|cbn in E2; discriminate E2]|cbn in E1; first [discriminate E1|injection E1 as _ E1]]).
Qed.
Lemma renamed_inj s1 s2 t : ~ contains ".zeropb.go" s1 -> ~ contains ".zeropb.go" s2 -> renamed s1 t -> renamed s2 t -> s1 = s2.
Proof.
  intros N1 N2 (ps & P1 & -> & -> & _) (qs & Q1 & -> & E & _). f_equal.
  eapply join_unique; [|exact no_border|exact P1|exact Q1| | |exact E]; [done| |].
  - apply Forall_forall. intros p Hp (x & y & ->). apply N1. destruct (piece_contained ".proto" ps _ Hp) as (a & b & ->).
    exists (a +:+ x), (y +:+ b). rewrite !sapp_assoc. done.
  - apply Forall_forall. intros p Hp (x & y & ->). apply N2. destruct (piece_contained ".proto" qs _ Hp) as (a & b & ->).
    exists (a +:+ x), (y +:+ b). rewrite !sapp_assoc. done.
Qed.

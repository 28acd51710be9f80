(** * Proof of C66 *)
From Verif Require Import SpecTree.
From Verif Require Import VarintFacts OffsetsFacts RecFacts DecodeFacts SetFacts GetFacts IterFacts ApiFacts ApiInv.
From Verif Require Import Core Core2 Core3 Core4 Core5 Core6.
From Verif Require TreeFacts Canon.

Section Env.
Context (D : env) (HD : env_ok D).

(** Payloads are shorter than the message. *)
Lemma occ_shorter rs bs f p : wire rs bs -> In (WBytes p) (occ f rs) -> (length p < length bs)%nat.
Proof.
  induction 1 as [|[g w] rs b1 b2 Hr Hw IH]; cbn [occ]; [done|].
  intros Hin. rewrite app_length.
  assert (Hd : w = WBytes p \/ In (WBytes p) (occ f rs)).
  { destruct (g =? f); [destruct Hin; auto|auto]. }
  destruct Hd as [->|Hd].
  - destruct Hr as (tb & pb & -> & [_ Ht] & lb & -> & Hl & _). rewrite !app_length.
    apply is_varint_len in Ht, Hl. unfold zlen in *. lia.
  - specialize (IH Hd). lia.
Qed.

Lemma wire_bytes rs bs : wire rs bs -> Forall is_byte bs.
Proof. intros Hw. apply wire_concrete in Hw as (cs & Hv & _ & <-). apply flat_bytes, Hv. Qed.

(** ** Decoding an encoding of a tree *)
Lemma decode_tree : forall n id bs t x,
  (length bs <= n)%nat -> Z.of_nat (length bs) < 2 ^ 63 -> encodes D id bs t -> of_type (emt D id) x ->
  exists y, m_Decode (emt D id) x bs = Ok (None, y) /\ m_Encode y = bs /\ of_type (emt D id) y /\ reads D id y t.
Proof.
  induction n as [n IH] using lt_wf_ind. intros id bs t x Hn Hl He Hx.
  destruct He as [id rs bs t Hw Hfit (H1 & H2 & H3 & H4)].
  destruct (HD id) as (Ha & Hr & Hrep & Hsing).
  destruct (decode_accepts (emt D id) x rs bs Hx Hw Hfit Hl) as (y & Hy & Hey & Hg & Hit).
  exists y. split_and!; [exact Hy|exact Hey| |].
  { destruct (m_Decode_bounds _ _ _ _ _ Hx Hl Hy) as (_ & _ & Hz & _). unfold of_type. unfold zlen in Hz. lia. }
  assert (Hsc : forall f k, ekind D id f = Some k -> exists k', esc D id f = Some k' /\ 0 <= f < Z.of_nat (alen (emt D id))).
  { intros f k Hk. destruct (esc D id f) as [k'|] eqn:E; [eauto|]. unfold esc in E. rewrite Hk in E. destruct k; discriminate. }
  assert (Hchild : forall f id' p c z, In (WBytes p) (occ f rs) -> encodes D id' p c -> of_type (emt D id') z ->
    exists y, m_Decode (emt D id') z p = Ok (None, y) /\ of_type (emt D id') y /\ reads D id' y c).
  { intros f id' p c z Hin Hc Hz. pose proof (occ_shorter rs bs f p Hw Hin) as Hlt.
    destruct (IH (length p) ltac:(lia) id' p c z (le_n _) ltac:(lia) Hc Hz) as (u & ? & _ & ? & ?). eauto. }
  constructor.
  - intros f T Hf. destruct (Hsc _ _ Hf) as (_ & _ & Hb). destruct (H1 f T Hf) as [C1 C2]. rewrite <- C2. apply Hg; [exact Hb| |exact C1].
    apply (Hsing f T). unfold esc. rewrite Hf. done.
  - intros f id' z Hf Hn'. destruct (Hsc _ _ Hf) as (_ & _ & Hb). rewrite m_Message_get, (Hg f PBytes); [|exact Hb| |].
    + rewrite (H2 f id' Hf Hn'). done.
    + apply (Hsing f PBytes). unfold esc. rewrite Hf. done.
    + rewrite (H2 f id' Hf Hn'). done.
  - intros f id' z c Hf Hs Hz. destruct (Hsc _ _ Hf) as (_ & _ & Hb). destruct (H3 f id' c Hf Hs) as (p & Hp & Hc).
    rewrite m_Message_get, (Hg f PBytes); [|exact Hb| |].
    + rewrite Hp. unfold read_single. cbn [last value_of rbind].
      destruct (Hchild f id' p c z) as (u & Hu & _ & Hru); [rewrite Hp; left; done|exact Hc|exact Hz|].
      rewrite Hu. eauto.
    + apply (Hsing f PBytes). unfold esc. rewrite Hf. done.
    + rewrite Hp. intros w [= <-]. split; [done|exact I].
  - intros f id' z k Hf Hz Hk. destruct (Hsc _ _ Hf) as (_ & _ & Hb). pose proof (H4 f id' Hf) as Hall.
    assert (Hwt : Forall (fun w => wire_type w = 2) (occ f rs)).
    { clear -Hall. induction Hall as [|w c ws cs (p & -> & _) _ IH]; constructor; [done|exact IH]. }
    rewrite Hit; [|exact Hb| |exact Hwt|rewrite (Forall2_length _ _ _ Hall); exact Hk].
    2: { apply Hrep. unfold esc. rewrite Hf. done. }
    assert (Hin : forall w, In w (occ f rs) -> In w (occ f rs)) by auto. revert Hin Hall z Hz. clear -Hchild.
    generalize (occ f rs) at 1 3 4. intros l. generalize (elems_at t f). intros cs Hin Hall. induction Hall as [|w c ws cs (p & -> & Hc) Hall IH]; intros z Hz.
    + exists []. split; [done|constructor].
    + cbn [read_repeated map bytes_of decode_each].
      destruct (Hchild f id' p c z) as (u & Hu & Htu & Hru); [apply Hin; left; done|exact Hc|exact Hz|].
      rewrite Hu. cbn [rbind]. destruct (IH ltac:(intros w Hw; apply Hin; right; exact Hw) u Htu) as (l & El & Hl).
      unfold read_repeated in El. rewrite El. cbn [rbind]. eexists. split; [reflexivity|]. constructor; [|exact Hl]. done.
Qed.

(** ** Mutations *)
Lemma scalar_tapp t1 t2 f : scalar_at (tapp t1 t2) f = match scalar_at t2 f with Some v => Some v | None => scalar_at t1 f end.
Proof. induction t1 as [|g v r IH|g c _ r IH|g c _ r IH]; cbn; rewrite ?IH; destruct (scalar_at t2 f); done. Qed.
Lemma sub_tapp t1 t2 f : sub_at (tapp t1 t2) f = match sub_at t2 f with Some v => Some v | None => sub_at t1 f end.
Proof. induction t1 as [|g v r IH|g c _ r IH|g c _ r IH]; cbn; rewrite ?IH; destruct (sub_at t2 f); done. Qed.
Lemma elems_tapp t1 t2 f : elems_at (tapp t1 t2) f = elems_at t1 f ++ elems_at t2 f.
Proof. induction t1 as [|g v r IH|g c _ r IH|g c _ r IH]; cbn; rewrite ?IH; try done. destruct (g =? f); done. Qed.

Lemma mut_step id s t m u :
  mut_ok D id u -> holds (encodes D) D id s t ->
  exists o, op_ok (Z.of_nat (alen (emt D id))) (esc D id) o /\ op_sparse (esc D id) o /\ op_size o = mut_size u /\
    zero_step D id m u = step (emt D id) (esc D id) m o /\
    holds (encodes D) D id (spec_step (esc D id) s o) (tree_step t u).
Proof.
  intros Hok (H1 & H2 & H3 & H4). destruct u as [g v|g x d|g x d| |bs t']; cbn [mut_ok] in Hok.
  - destruct Hok as (T & Hk & Hin). assert (Eg : esc D id g = Some (KSingle T)) by (unfold esc; rewrite Hk; done).
    exists (OSet g v). cbn [op_ok op_sparse op_size mut_size zero_step step spec_step tree_step]. rewrite Hk, Eg.
    split_and!; eauto. unfold holds. split_and!.
    + intros f T' Hf. rewrite scalar_tapp. cbn [scalar_at]. rewrite (Z.eqb_sym g f). destruct (Z.eqb_spec f g) as [->|]; [|apply H1, Hf].
      rewrite Hf in Hk. injection Hk as ->. split.
      * intros w [= <-]. apply conforms_wire_of, Hin.
      * unfold read_single. cbn [last]. apply value_of_wire_of, Hin.
    + intros f id' Hf. rewrite sub_tapp. cbn [sub_at]. destruct (Z.eqb_spec f g) as [->|]; [congruence|]. apply (H2 f id' Hf).
    + intros f id' c Hf. rewrite sub_tapp. cbn [sub_at]. destruct (Z.eqb_spec f g) as [->|]; [congruence|]. apply (H3 f id' c Hf).
    + intros f id' Hf. rewrite elems_tapp. cbn [elems_at]. rewrite app_nil_r. destruct (Z.eqb_spec f g) as [->|]; [congruence|]. apply (H4 f id' Hf).
  - destruct Hok as (id' & Hk & Henc). assert (Eg : esc D id g = Some (KSingle PBytes)) by (unfold esc; rewrite Hk; done).
    assert (Hby : Forall is_byte (m_Encode x)) by (destruct Henc; eapply wire_bytes; eassumption).
    exists (OSet g (VBytes (Some (m_Encode x)))). cbn [op_ok op_sparse op_size mut_size zero_step step spec_step tree_step pval_size]. rewrite Eg.
    split_and!; [exists PBytes; done|exact I|done|done|]. unfold holds. split_and!.
    + intros f T' Hf. rewrite scalar_tapp. cbn [scalar_at]. destruct (Z.eqb_spec f g) as [->|]; [congruence|apply H1, Hf].
    + intros f i Hf. rewrite sub_tapp. cbn [sub_at]. rewrite (Z.eqb_sym g f). destruct (Z.eqb_spec f g) as [->|]; [discriminate|]. apply (H2 f i Hf).
    + intros f i c Hf. rewrite sub_tapp. cbn [sub_at]. rewrite (Z.eqb_sym g f). destruct (Z.eqb_spec f g) as [->|]; [|apply (H3 f i c Hf)].
      intros [= ->]. rewrite Hf in Hk. injection Hk as ->. exists (m_Encode x). done.
    + intros f i Hf. rewrite elems_tapp. cbn [elems_at]. rewrite app_nil_r. destruct (Z.eqb_spec f g) as [->|]; [congruence|]. apply (H4 f i Hf).
  - destruct Hok as (id' & Hk & Henc). assert (Eg : esc D id g = Some KRepeated) by (unfold esc; rewrite Hk; done).
    assert (Hby : Forall is_byte (m_Encode x)) by (destruct Henc; eapply wire_bytes; eassumption).
    exists (OAppend g (m_Encode x)). cbn [op_ok op_sparse op_size mut_size zero_step step spec_step tree_step]. rewrite Eg.
    split_and!; [done|done|exact I|done|done|]. unfold holds. split_and!.
    + intros f T' Hf. rewrite scalar_tapp. cbn [scalar_at]. destruct (Z.eqb_spec f g) as [->|]; [congruence|apply H1, Hf].
    + intros f i Hf. rewrite sub_tapp. cbn [sub_at]. destruct (Z.eqb_spec f g) as [->|]; [congruence|]. apply (H2 f i Hf).
    + intros f i c Hf. rewrite sub_tapp. cbn [sub_at]. destruct (Z.eqb_spec f g) as [->|]; [congruence|]. apply (H3 f i c Hf).
    + intros f i Hf. rewrite elems_tapp. cbn [elems_at]. rewrite (Z.eqb_sym g f). destruct (Z.eqb_spec f g) as [->|]; [|rewrite app_nil_r; apply (H4 f i Hf)].
      rewrite Hf in Hk. injection Hk as ->. apply Forall2_app; [apply H4, Hf|]. constructor; [|constructor]. exists (m_Encode x). done.
  - exists OReset. cbn [op_ok op_sparse op_size mut_size zero_step step spec_step tree_step].
    split_and!; [exact I|exact I|done|done|]. unfold holds. split_and!; try done. intros f i Hf. constructor.
  - destruct Hok as (rs & Hw & Hfit & Hsp & Hh). exists (ODecode rs bs).
    cbn [op_ok op_sparse op_size mut_size zero_step step spec_step tree_step].
    split_and!; [exact Hw|exact Hfit|exact Hsp|done|done|]. destruct Hh as (K1 & K2 & K3 & K4). unfold holds.
    assert (Hs : forall f T, esc D id f = Some (KSingle T) -> last_only (occ f rs) = occ f rs).
    { intros f T Hf. apply Canon.last_only_short. eapply Hsp, Hf. }
    split_and!.
    + intros f T Hf. assert (Ef : esc D id f = Some (KSingle T)) by (unfold esc; rewrite Hf; done). rewrite Ef, (Hs f T Ef). apply (K1 f T Hf).
    + intros f i Hf. assert (Ef : esc D id f = Some (KSingle PBytes)) by (unfold esc; rewrite Hf; done). rewrite Ef, (Hs f _ Ef). apply (K2 f i Hf).
    + intros f i c Hf. assert (Ef : esc D id f = Some (KSingle PBytes)) by (unfold esc; rewrite Hf; done). rewrite Ef, (Hs f _ Ef). apply (K3 f i c Hf).
    + intros f i Hf. assert (Ef : esc D id f = Some KRepeated) by (unfold esc; rewrite Hf; done). rewrite Ef. apply (K4 f i Hf).
Qed.

Lemma mut_run id us : forall s t m,
  Forall (mut_ok D id) us -> holds (encodes D) D id s t ->
  exists os, Forall (op_ok (Z.of_nat (alen (emt D id))) (esc D id)) os /\ Forall (op_sparse (esc D id)) os /\ ops_size os = muts_size us /\
    zero_run D id m us = run (emt D id) (esc D id) m os /\
    holds (encodes D) D id (fold_left (spec_step (esc D id)) os s) (fold_left tree_step us t).
Proof.
  induction us as [|u us IH]; intros s t m Hok Hh.
  - exists []. split_and!; try done; constructor.
  - apply Forall_cons in Hok as [Hu Hok]. destruct (mut_step id s t m u Hu Hh) as (o & O1 & O2 & O3 & O4 & O5).
    assert (Hstep : exists os, Forall (op_ok (Z.of_nat (alen (emt D id))) (esc D id)) os /\ Forall (op_sparse (esc D id)) os /\ ops_size os = muts_size us /\
      (forall m', zero_step D id m u = Ok m' -> zero_run D id m' us = run (emt D id) (esc D id) m' os) /\
      holds (encodes D) D id (fold_left (spec_step (esc D id)) os (spec_step (esc D id) s o)) (fold_left tree_step us (tree_step t u))).
    { destruct (zero_step D id m u) as [m'| | |].
      - destruct (IH _ _ m' Hok O5) as (os & A1 & A2 & A3 & A4 & A5). exists os. split_and!; try done. intros ? [= <-]. done.
      - destruct (IH _ _ m Hok O5) as (os & A1 & A2 & A3 & A4 & A5). exists os. split_and!; done.
      - destruct (IH _ _ m Hok O5) as (os & A1 & A2 & A3 & A4 & A5). exists os. split_and!; done.
      - destruct (IH _ _ m Hok O5) as (os & A1 & A2 & A3 & A4 & A5). exists os. split_and!; done. }
    destruct Hstep as (os & A1 & A2 & A3 & A4 & A5). exists (o :: os). split_and!.
    + constructor; done.
    + constructor; done.
    + unfold ops_size, muts_size in *. cbn [foldr]. rewrite A3, O3. done.
    + cbn [zero_run run]. rewrite <- O4. destruct (zero_step D id m u) as [m'| | |]; cbn [rbind]; auto.
    + exact A5.
Qed.

Lemma mutations id us :
  Forall (mut_ok D id) us -> muts_size us < 2 ^ 63 ->
  exists m, zero_run D id (msg_zero (emt D id)) us = Ok m /\
    encodes D id (m_Encode m) (fold_left tree_step us TNil) /\ reads D id m (fold_left tree_step us TNil).
Proof.
  intros Hok Hsz.
  assert (H0 : holds (encodes D) D id (fun _ => []) TNil).
  { unfold holds. split_and!; try done. intros f i Hf. constructor. }
  destruct (mut_run id us _ _ (msg_zero (emt D id)) Hok H0) as (os & A1 & A2 & A3 & A4 & A5).
  rewrite <- A3 in Hsz.
  destruct (history_refines (emt D id) (esc D id) os (HD id) A1 Hsz) as (m & Hm & _ & _).
  exists m. rewrite A4. split; [exact Hm|].
  assert (Henc : encodes D id (m_Encode m) (fold_left tree_step us TNil)).
  { destruct (run_sparse (emt D id) (esc D id) os (msg_zero (emt D id)) []) as (m' & cs & E & HR & Hsp); try assumption.
    { apply HD. } { apply rep_zero. } { intros f T Hf. cbn. lia. }
    rewrite Hm in E. injection E as <-.
    destruct (encode_wellformed (emt D id) (esc D id) os m (HD id) (conj A1 Hm) Hsz) as (rs & Hw & Hfit & Hs1 & Hs2).
    assert (Ers : rs = map crecord cs).
    { apply (wire_det rs (map crecord cs) (m_Encode m)).
      - destruct (hist_rep _ _ _ _ (HD id) (conj A1 Hm) Hsz) as (? & _ & _ & Hl). unfold m_Encode. unfold zlen in Hl. lia.
      - apply wire_min_wire, Hw.
      - apply wire_concrete. exists cs. split_and!; [|done|].
        + apply cmin_valid, (rep_min _ _ _ _ HR).
        + symmetry. apply (rep_buf _ _ _ _ HR). }
    subst rs. apply (Encodes D id (map crecord cs)).
    - apply wire_min_wire, Hw.
    - eapply Forall_impl; [exact Hfit|]. intros r [Hr _]. exact Hr.
    - assert (Hocc : forall f k, ekind D id f = Some k -> fold_left (spec_step (esc D id)) os (fun _ => []) f = occ f (map crecord cs)).
      { intros f k Hf. fold (spec_run (esc D id) os). destruct (esc D id f) as [[T|]|] eqn:Ef.
        - rewrite <- (Hs1 f T Ef). apply Canon.last_only_short. eapply Hsp, Ef.
        - symmetry. apply Hs2. congruence.
        - unfold esc in Ef. rewrite Hf in Ef. destruct k; discriminate. }
      destruct A5 as (K1 & K2 & K3 & K4). unfold holds. split_and!.
      + intros f T Hf. rewrite <- (Hocc f _ Hf). apply (K1 f T Hf).
      + intros f i Hf. rewrite <- (Hocc f _ Hf). apply (K2 f i Hf).
      + intros f i c Hf. rewrite <- (Hocc f _ Hf). apply (K3 f i c Hf).
      + intros f i Hf. rewrite <- (Hocc f _ Hf). apply (K4 f i Hf). }
  split; [exact Henc|].
  assert (Hl : Z.of_nat (length (m_Encode m)) < 2 ^ 63).
  { destruct (hist_rep _ _ _ _ (HD id) (conj A1 Hm) Hsz) as (? & _ & _ & Hl). unfold m_Encode. unfold zlen in Hl. lia. }
  assert (Hz : of_type (emt D id) (msg_zero (emt D id))) by apply replicate_length.
  destruct (decode_tree _ id (m_Encode m) _ _ (le_n _) Hl Henc Hz) as (y & Hy & _ & _ & Hr).
  destruct (decode_encode (emt D id) (esc D id) os m _ (HD id) (conj A1 Hm) Hsz Hz) as (y' & Hy' & _ & Hsame).
  rewrite Hy in Hy'. injection Hy' as <-. eapply TreeFacts.reads_same; [exact Hr|].
  intros f. specialize (Hsame f). unfold same_at in *. destruct (esc D id f) as [[T|]|]; [|done|done].
  - destruct Hsame as [S1 S2]. split; [done|]. intros HT mt' z. symmetry. apply S2, HT.
Qed.
End Env.

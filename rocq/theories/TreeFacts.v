(** * Proof of C20 *)
From Verif Require Import Tree.
From Verif Require Import VarintFacts OffsetsFacts RecFacts DecodeFacts SetFacts GetFacts IterFacts ApiFacts ApiInv.
From Verif Require Import Core Core2 Core3 Core4 Core5 Core6.

Section Env.
Context (D : env) (HD : env_ok D).

Definition enc (id : nat) (t : tree) : list Z :=
  match build D id t with Ok m => m_Encode m | _ => [] end.

Definition kid (id : nat) (f : Z) : nat :=
  match ekind D id f with Some (TMsg i) | Some (TRep i) => i | _ => 0%nat end.

Fixpoint ops_of (id : nat) (t : tree) : list op :=
  match t with
  | TNil => []
  | TSet f v rest => OSet f v :: ops_of id rest
  | TSub f c rest => OSet f (VBytes (Some (enc (kid id f) c))) :: ops_of id rest
  | TAdd f c rest => OAppend f (enc (kid id f) c) :: ops_of id rest
  end.

(** A child that was built. *)
Definition built (id : nat) (t : tree) : Prop :=
  exists m, build D id t = Ok m /\ Forall (op_ok (Z.of_nat (alen (emt D id))) (esc D id)) (ops_of id t) /\
    run (emt D id) (esc D id) (msg_zero (emt D id)) (ops_of id t) = Ok m /\
    ops_size (ops_of id t) <= tree_size t /\ tree_size t < 2 ^ 63 /\ reads D id m t.

Fixpoint children_built (id : nat) (t : tree) : Prop :=
  match t with
  | TNil => True
  | TSet _ _ rest => children_built id rest
  | TSub f c rest | TAdd f c rest => built (kid id f) c /\ children_built id rest
  end.

Lemma tree_size_nonneg t : 0 <= tree_size t.
Proof. induction t as [|f v|f c|f c]; cbn; try lia. assert (0 <= pval_size v) by (destruct v as [| | |[|]]; cbn; lia). lia. Qed.

Lemma built_enc id t : built id t -> exists m, build D id t = Ok m /\ enc id t = m_Encode m /\
  Forall is_byte (enc id t) /\ zlen (enc id t) <= tree_size t.
Proof.
  intros (m & Hb & Hok & Hrun & Hs & Hl & _). exists m. unfold enc. rewrite Hb. split_and!; try reflexivity.
  - destruct (hist_rep _ _ _ _ (HD id) (conj Hok Hrun)) as (cs & HR & _); [lia|]. eapply rep_bytes, HR.
  - destruct (hist_rep _ _ _ _ (HD id) (conj Hok Hrun)) as (cs & HR & _ & H); [lia|]. unfold m_Encode. lia.
Qed.

Lemma ops_ok id t :
  tree_ok D id t -> children_built id t ->
  Forall (op_ok (Z.of_nat (alen (emt D id))) (esc D id)) (ops_of id t) /\ ops_size (ops_of id t) <= tree_size t /\
  (forall m, build_from D id m t = run (emt D id) (esc D id) m (ops_of id t)).
Proof.
  induction t as [|f v rest IH|f c _ rest IH|f c _ rest IH]; cbn [tree_ok children_built ops_of tree_size build_from run].
  - intros _ _. split_and!; [constructor|reflexivity|reflexivity].
  - intros [(T & Hk & Hin) Hok] Hc. destruct (IH Hok Hc) as (H1 & H2 & H3). split_and!.
    + constructor; [|exact H1]. exists T. unfold esc. rewrite Hk. auto.
    + unfold ops_size in *. cbn [foldr op_size]. lia.
    + intros m. rewrite Hk. unfold step, esc. rewrite Hk. destruct (m_set T m f v) as [m'| | |]; cbn [rbind]; auto.
  - intros [(id' & Hk & Hck) Hok] [Hb Hc]. destruct (IH Hok Hc) as (H1 & H2 & H3).
    assert (Hkid : kid id f = id') by (unfold kid; rewrite Hk; reflexivity). rewrite Hkid in *.
    destruct (built_enc _ _ Hb) as (x & Hx & He & Hby & Hl). split_and!.
    + constructor; [|exact H1]. exists PBytes. unfold esc. rewrite Hk. split; [reflexivity|exact Hby].
    + unfold ops_size in *. cbn [foldr op_size pval_size]. unfold zlen in Hl. lia.
    + intros m. rewrite Hk. unfold build in Hx. rewrite Hx. cbn [rbind]. unfold m_SetMessage. rewrite He. unfold step, esc. rewrite Hk.
      destruct (m_set PBytes m f (VBytes (Some (m_Encode x)))) as [m'| | |]; cbn [rbind]; auto.
  - intros [(id' & Hk & Hck) Hok] [Hb Hc]. destruct (IH Hok Hc) as (H1 & H2 & H3).
    assert (Hkid : kid id f = id') by (unfold kid; rewrite Hk; reflexivity). rewrite Hkid in *.
    destruct (built_enc _ _ Hb) as (x & Hx & He & Hby & Hl). split_and!.
    + constructor; [|exact H1]. unfold op_ok, esc. rewrite Hk. split; [reflexivity|exact Hby].
    + unfold ops_size in *. cbn [foldr op_size]. unfold zlen in Hl. lia.
    + intros m. rewrite Hk. unfold build in Hx. rewrite Hx. cbn [rbind]. unfold m_AppendTo. rewrite He. unfold step.
      destruct (m_append m f (m_Encode x)) as [m'| | |]; cbn [rbind]; auto.
Qed.

Lemma fold_same sc f os s s' :
  s f = s' f -> fold_left (spec_step sc) os s f = fold_left (spec_step sc) os s' f.
Proof.
  revert s s'. induction os as [|o os IH]; intros s s' Hs; [exact Hs|]. cbn [fold_left]. apply IH.
  destruct o; cbn [spec_step]; rewrite ?Hs; reflexivity.
Qed.

(** The record the operations describe, field by field. *)
Lemma spec_scalar id t f T s :
  tree_ok D id t -> ekind D id f = Some (TScalar T) ->
  fold_left (spec_step (esc D id)) (ops_of id t) s f =
  match scalar_at t f with Some v => [wire_of T v] | None => s f end.
Proof.
  intros Hok Hf. revert s. induction t as [|g v rest IH|g c _ rest IH|g c _ rest IH]; intros s; cbn [tree_ok ops_of fold_left scalar_at] in *.
  - reflexivity.
  - destruct Hok as [(T' & Hk & Hin) Hok]. rewrite IH by exact Hok. destruct (scalar_at rest f); [reflexivity|].
    cbn [spec_step]. rewrite (Z.eqb_sym g f). destruct (Z.eqb_spec f g) as [->|]; [|reflexivity].
    unfold esc. rewrite Hf. reflexivity.
  - destruct Hok as [(id' & Hk & _) Hok]. rewrite IH by exact Hok. cbn [spec_step].
    destruct (Z.eqb_spec f g) as [->|]; [congruence|reflexivity].
  - destruct Hok as [(id' & Hk & _) Hok]. rewrite IH by exact Hok. cbn [spec_step].
    destruct (Z.eqb_spec f g) as [->|]; [congruence|reflexivity].
Qed.

Lemma spec_sub id t f id' s :
  tree_ok D id t -> ekind D id f = Some (TMsg id') ->
  fold_left (spec_step (esc D id)) (ops_of id t) s f =
  match sub_at t f with Some c => [WBytes (enc id' c)] | None => s f end.
Proof.
  intros Hok Hf. revert s. induction t as [|g v rest IH|g c _ rest IH|g c _ rest IH]; intros s; cbn [tree_ok ops_of fold_left sub_at] in *.
  - reflexivity.
  - destruct Hok as [(T' & Hk & Hin) Hok]. rewrite IH by exact Hok. cbn [spec_step].
    destruct (Z.eqb_spec f g) as [->|]; [congruence|reflexivity].
  - destruct Hok as [(id2 & Hk & _) Hok]. rewrite IH by exact Hok. destruct (sub_at rest f); [reflexivity|].
    cbn [spec_step]. rewrite (Z.eqb_sym g f). destruct (Z.eqb_spec f g) as [->|]; [|reflexivity].
    unfold esc, kid. rewrite Hf. reflexivity.
  - destruct Hok as [(id2 & Hk & _) Hok]. rewrite IH by exact Hok. cbn [spec_step].
    destruct (Z.eqb_spec f g) as [->|]; [congruence|reflexivity].
Qed.

Lemma spec_rep id t f id' s :
  tree_ok D id t -> ekind D id f = Some (TRep id') ->
  fold_left (spec_step (esc D id)) (ops_of id t) s f = s f ++ map (fun c => WBytes (enc id' c)) (elems_at t f).
Proof.
  intros Hok Hf. revert s. induction t as [|g v rest IH|g c _ rest IH|g c _ rest IH]; intros s; cbn [tree_ok ops_of fold_left elems_at] in *.
  - cbn. rewrite app_nil_r. reflexivity.
  - destruct Hok as [(T' & Hk & Hin) Hok]. rewrite IH by exact Hok. cbn [spec_step].
    destruct (Z.eqb_spec f g) as [->|]; [congruence|reflexivity].
  - destruct Hok as [(id2 & Hk & _) Hok]. rewrite IH by exact Hok. cbn [spec_step].
    destruct (Z.eqb_spec f g) as [->|]; [congruence|reflexivity].
  - destruct Hok as [(id2 & Hk & _) Hok]. rewrite IH by exact Hok. cbn [spec_step].
    rewrite (Z.eqb_sym g f). destruct (Z.eqb_spec f g) as [->|]; [|reflexivity].
    unfold kid. rewrite Hf, <- app_assoc. reflexivity.
Qed.

Lemma sub_built id t f id' c : children_built id t -> tree_ok D id t -> ekind D id f = Some (TMsg id') -> sub_at t f = Some c -> built id' c.
Proof.
  intros Hc Hok Hf. induction t as [|g v rest IH|g d _ rest IH|g d _ rest IH]; cbn in *; try discriminate.
  - apply IH; [exact Hc|apply Hok].
  - destruct (sub_at rest f) as [x|] eqn:E.
    + intros [= ->]. apply IH; [apply Hc|apply Hok|reflexivity].
    + destruct (Z.eqb_spec g f) as [->|]; [|discriminate]. intros [= ->]. destruct Hc as [Hb _]. unfold kid in Hb. rewrite Hf in Hb. exact Hb.
  - apply IH; [apply Hc|apply Hok].
Qed.

Lemma elems_built id t f id' : children_built id t -> tree_ok D id t -> ekind D id f = Some (TRep id') -> Forall (built id') (elems_at t f).
Proof.
  intros Hc Hok Hf. induction t as [|g v rest IH|g d _ rest IH|g d _ rest IH]; cbn in *.
  - constructor.
  - apply IH; [exact Hc|apply Hok].
  - apply IH; [apply Hc|apply Hok].
  - destruct (Z.eqb_spec g f) as [->|]; [|apply IH; [apply Hc|apply Hok]]. constructor; [|apply IH; [apply Hc|apply Hok]].
    destruct Hc as [Hb _]. unfold kid in Hb. rewrite Hf in Hb. exact Hb.
Qed.

Lemma reads_same id m m' t : reads D id m t -> same_answers (esc D id) m m' -> reads D id m' t.
Proof.
  intros Hr Hs. destruct Hr as [id m t H1 H2 H3 H4]. constructor.
  - intros f T Hf. rewrite <- (H1 f T Hf). specialize (Hs f). unfold same_at, esc in Hs. rewrite Hf in Hs. symmetry. apply Hs.
  - intros f id' x Hf Hn. rewrite <- (H2 f id' x Hf Hn). specialize (Hs f). unfold same_at, esc in Hs. rewrite Hf in Hs.
    symmetry. apply Hs. reflexivity.
  - intros f id' x c Hf Hn Hx. destruct (H3 f id' x c Hf Hn Hx) as (y & Hy & Hr). exists y. split; [|exact Hr].
    rewrite <- Hy. specialize (Hs f). unfold same_at, esc in Hs. rewrite Hf in Hs. symmetry. apply Hs. reflexivity.
  - intros f id' x n Hf Hx Hn. destruct (H4 f id' x n Hf Hx Hn) as (l & Hl & Hr). exists l. split; [|exact Hr].
    rewrite <- Hl. specialize (Hs f). unfold same_at, esc in Hs. rewrite Hf in Hs. symmetry. apply Hs.
Qed.

(** Decoding a built child into any struct. *)
Lemma built_decode id t x :
  built id t -> of_type (emt D id) x ->
  exists y, m_Decode (emt D id) x (enc id t) = Ok (None, y) /\ reads D id y t /\ of_type (emt D id) y.
Proof.
  intros (m & Hb & Hok & Hrun & Hs & Hl & Hr) Hx. unfold enc. rewrite Hb.
  destruct (decode_encode _ _ _ _ x (HD id) (conj Hok Hrun)) as (y & Hy & _ & Hsame); [lia|exact Hx|].
  exists y. split_and!; [exact Hy|eapply reads_same; eassumption|].
  assert (Hlen : zlen (m_Encode m) < 2 ^ 63).
  { destruct (hist_rep _ _ _ _ (HD id) (conj Hok Hrun)) as (cs & HR & _ & H); [lia|]. unfold m_Encode. lia. }
  destruct (m_Decode_bounds _ _ _ _ _ Hx Hlen Hy) as (_ & _ & H & _). unfold of_type. unfold zlen in H. lia.
Qed.

Lemma decode_each_built id : forall cs x,
  Forall (built id) cs -> of_type (emt D id) x ->
  exists l, decode_each (emt D id) x (map (enc id) cs) = Ok l /\
    Forall2 (fun p c => p.1 = None /\ reads D id p.2 c) l cs.
Proof.
  intros cs x Hcs. revert x. induction Hcs as [|c cs Hc Hcs IH]; intros x Hx; cbn [map decode_each].
  - exists []. split; [reflexivity|constructor].
  - destruct (built_decode _ _ _ Hc Hx) as (y & Hy & Hr & Ht). rewrite Hy. cbn [rbind].
    destruct (IH y Ht) as (l & Hl & H2). rewrite Hl. cbn [rbind]. eexists. split; [reflexivity|]. constructor; [|exact H2]. auto.
Qed.

Lemma assemble id t :
  tree_ok D id t -> children_built id t -> tree_size t < 2 ^ 63 -> built id t.
Proof.
  intros Hok Hc Hl. destruct (ops_ok id t Hok Hc) as (H1 & H2 & H3).
  destruct (history_refines (emt D id) (esc D id) (ops_of id t) (HD id) H1) as (m & Hm & Hg & Hi); [lia|].
  exists m. split_and!; try assumption.
  { unfold build. rewrite H3. exact Hm. }
  assert (Hspec : forall f, spec_run (esc D id) (ops_of id t) f = fold_left (spec_step (esc D id)) (ops_of id t) (fun _ => []) f) by reflexivity.
  constructor.
  - intros f T Hf. rewrite (Hg f T); [|unfold esc; rewrite Hf; reflexivity]. rewrite Hspec, (spec_scalar id t f T) by assumption.
    destruct (scalar_at t f) as [v|] eqn:E; [|reflexivity]. unfold read_single. cbn [last]. rewrite value_of_wire_of; [reflexivity|].
    clear -Hok Hf E. induction t as [|g u rest IH|g d _ rest IH|g d _ rest IH]; cbn in *; try discriminate.
    + destruct (scalar_at rest f) as [x|]; [injection E as ->; apply IH; [apply Hok|reflexivity]|].
      destruct (Z.eqb_spec g f) as [->|]; [|discriminate]. injection E as ->. destruct Hok as [(T' & Hk & Hin) _]. congruence.
    + apply IH; [apply Hok|exact E].
    + apply IH; [apply Hok|exact E].
  - intros f id' x Hf Hn. rewrite m_Message_get, (Hg f PBytes); [|unfold esc; rewrite Hf; reflexivity].
    rewrite Hspec, (spec_sub id t f id') by assumption. rewrite Hn. reflexivity.
  - intros f id' x c Hf Hs Hx. rewrite m_Message_get, (Hg f PBytes); [|unfold esc; rewrite Hf; reflexivity].
    rewrite Hspec, (spec_sub id t f id') by assumption. rewrite Hs. cbn [rbind read_single last value_of].
    destruct (built_decode id' c x) as (y & Hy & Hr & _); [eapply sub_built; eassumption|exact Hx|].
    exists y. split; [|exact Hr]. unfold read_single. cbn. rewrite Hy. reflexivity.
  - intros f id' x n Hf Hx Hn.
    assert (Hrep : spec_run (esc D id) (ops_of id t) f = map (fun c => WBytes (enc id' c)) (elems_at t f)).
    { rewrite Hspec, (spec_rep id t f id') by assumption. reflexivity. }
    rewrite (Hi f); [|unfold esc; rewrite Hf; reflexivity|rewrite Hrep, map_length; exact Hn].
    rewrite Hrep. unfold read_repeated. rewrite map_map. cbn [bytes_of].
    apply decode_each_built; [|exact Hx]. eapply elems_built; eassumption.
Qed.

Lemma tree_built t : forall id, tree_ok D id t -> tree_size t < 2 ^ 63 -> built id t.
Proof.
  assert (Hall : forall t, (forall id, tree_ok D id t -> tree_size t < 2 ^ 63 -> children_built id t)).
  { clear t. induction t as [|f v rest IH|f c IHc rest IH|f c IHc rest IH]; intros id Hok Hl; cbn [tree_ok tree_size children_built] in *.
    - exact I.
    - assert (0 <= pval_size v) by (destruct v as [| | |[|]]; cbn; lia). apply IH; [apply Hok|lia].
    - pose proof (tree_size_nonneg c). pose proof (tree_size_nonneg rest).
      destruct Hok as [(id' & Hk & Hck) Hok]. assert (kid id f = id') as -> by (unfold kid; rewrite Hk; reflexivity).
      split; [|apply IH; [exact Hok|lia]]. apply assemble; [exact Hck|apply IHc; [exact Hck|lia]|lia].
    - pose proof (tree_size_nonneg c). pose proof (tree_size_nonneg rest).
      destruct Hok as [(id' & Hk & Hck) Hok]. assert (kid id f = id') as -> by (unfold kid; rewrite Hk; reflexivity).
      split; [|apply IH; [exact Hok|lia]]. apply assemble; [exact Hck|apply IHc; [exact Hck|lia]|lia]. }
  intros id Hok Hl. apply assemble; auto.
Qed.

Lemma tree_round_trip id t x :
  tree_ok D id t -> tree_size t < 2 ^ 63 -> of_type (emt D id) x ->
  exists m y, build D id t = Ok m /\ reads D id m t /\
    m_Decode (emt D id) x (m_Encode m) = Ok (None, y) /\ reads D id y t.
Proof.
  intros Hok Hl Hx. pose proof (tree_built t id Hok Hl) as Hb. destruct (built_decode id t x Hb Hx) as (y & Hy & Hr & _).
  destruct Hb as (m & Hm & _ & _ & _ & _ & Hrm). unfold enc in Hy. rewrite Hm in Hy. exists m, y. auto.
Qed.
End Env.

(** * Proof of C57 *)
From Verif Require Import Gen.
From Verif Require Import Tree TreeFacts Text.
From Verif Require Import VarintFacts OffsetsFacts RecFacts DecodeFacts SetFacts GetFacts IterFacts ApiFacts ApiInv.
From Verif Require Import Core Core2 Core3 Core4 Core5 Core6.

Notation tsc := (esc test_env 0).

Lemma test_find f x : List.find (fun x : Z * ptype * string => x.1.1 =? f) test_scalars = Some x -> In x test_scalars /\ x.1.1 = f.
Proof. intros H. apply find_some in H as [H1 H2]. split; [exact H1|lia]. Qed.

Lemma test_env_ok : env_ok test_env.
Proof.
  intros id. unfold esc. cbn [ekind test_env emt]. split_and!.
  - vm_compute. discriminate.
  - intros f k. destruct (Z.eqb_spec f 17); [intros; subst; cbn; lia|]. destruct (Z.eqb_spec f 34); [intros; subst; cbn; lia|].
    destruct (List.find _ _) as [x|] eqn:E; [|discriminate]. intros _. apply test_find in E as [Hin <-].
    repeat (destruct Hin as [<-|Hin]; [cbn; lia|]). destruct Hin.
  - intros f. destruct (Z.eqb_spec f 17); [discriminate|]. destruct (Z.eqb_spec f 34) as [->|]; [intros _; cbn; tauto|].
    destruct (List.find _ _); discriminate.
  - intros f T. destruct (Z.eqb_spec f 17) as [->|]; [intros _; cbn; lia|]. destruct (Z.eqb_spec f 34); [discriminate|].
    destruct (List.find _ _) as [x|] eqn:E; [|discriminate]. intros _. apply test_find in E as [Hin <-].
    repeat (destruct Hin as [<-|Hin]; [cbn; lia|]). destruct Hin.
Qed.

(** [m] holds the tree [t]. *)
Definition holds (m : msg) (t : tree) : Prop :=
  exists cs, Rep test_mt tsc m cs /\ zlen (mbuf m) < 2 ^ 63 /\
    forall f, spec_run tsc (ops_of test_env 0 t) f = view tsc (map crecord cs) f.

Lemma built_holds t : built test_env 0 t ->
  exists m, build test_env 0 t = Ok m /\ holds m t /\
  forall x, of_type test_mt x -> exists y, m_Decode test_mt x (enc test_env 0 t) = Ok (None, y) /\ holds y t /\ of_type test_mt y.
Proof.
  intros (m & Hb & Hok & Hrun & Hs & Hl & _).
  destruct (hist_rep _ _ _ _ (test_env_ok 0%nat) (conj Hok Hrun)) as (cs & HR & Hv & Hz); [lia|].
  exists m. split; [exact Hb|]. split; [exists cs; split_and!; [exact HR|lia|exact Hv]|].
  intros x Hx. unfold enc. rewrite Hb.
  destruct (rep_decode_same _ _ _ _ x HR) as (y & Hy & Hb' & HR'); [lia|exact Hx|].
  exists y. split; [exact Hy|]. split; [exists cs; split_and!; [exact HR'|rewrite Hb'; lia|exact Hv]|].
  pose proof (rep_len _ _ _ _ HR') as HL. unfold of_type. unfold zlen in HL. cbn [emt test_env] in HL. lia.
Qed.

Fixpoint tdepth (t : tree) : nat :=
  match t with
  | TNil => 0
  | TSet _ _ rest => tdepth rest
  | TSub _ c rest | TAdd _ c rest => Nat.max (S (tdepth c)) (tdepth rest)
  end%nat.

Lemma sub_depth t f c : sub_at t f = Some c -> (tdepth c < tdepth t)%nat.
Proof.
  induction t as [|g v rest IH|g d _ rest IH|g d _ rest IH]; cbn; try discriminate.
  - exact IH.
  - destruct (sub_at rest f) as [x|]; [intros [= ->]; specialize (IH eq_refl); lia|]. destruct (g =? f); [intros [= ->]; lia|discriminate].
  - intros H. specialize (IH H). lia.
Qed.

Lemma elems_depth t f : Forall (fun c => (tdepth c < tdepth t)%nat) (elems_at t f).
Proof.
  induction t as [|g v rest IH|g d _ rest IH|g d _ rest IH]; cbn.
  - constructor.
  - exact IH.
  - eapply Forall_impl; [exact IH|]. cbn. lia.
  - destruct (g =? f); [constructor; [lia|]|]; (eapply Forall_impl; [exact IH|]); cbn; lia.
Qed.

Lemma sub_ok t f c : tree_ok test_env 0 t -> sub_at t f = Some c -> tree_ok test_env 0 c.
Proof.
  induction t as [|g v rest IH|g d _ rest IH|g d _ rest IH]; cbn [tree_ok sub_at]; try discriminate.
  - intros [_ H]. auto.
  - intros [(id' & Hk & Hd) H]. destruct (sub_at rest f) as [x|]; [intros [= ->]; auto|]. destruct (g =? f); [|discriminate].
    intros [= ->]. cbn [ekind test_env] in Hk. repeat case_match; simplify_eq; exact Hd.
  - intros [_ H]. auto.
Qed.
Lemma elems_ok t f : tree_ok test_env 0 t -> Forall (tree_ok test_env 0) (elems_at t f).
Proof.
  induction t as [|g v rest IH|g d _ rest IH|g d _ rest IH]; cbn [tree_ok elems_at].
  - constructor.
  - intros [_ H]. auto.
  - intros [_ H]. auto.
  - intros [(id' & Hk & Hd) H]. destruct (g =? f); [constructor; [|auto]|auto].
    cbn [ekind test_env] in Hk. repeat case_match; simplify_eq; exact Hd.
Qed.
Lemma sub_size t f c : sub_at t f = Some c -> tree_size c <= tree_size t.
Proof.
  induction t as [|g v rest IH|g d _ rest IH|g d _ rest IH]; cbn [sub_at tree_size]; try discriminate.
  - assert (0 <= pval_size v) by (destruct v as [| | |[|]]; cbn; lia). intros H1. specialize (IH H1). lia.
  - pose proof (tree_size_nonneg d). pose proof (tree_size_nonneg rest).
    destruct (sub_at rest f) as [x|]; [intros [= ->]; specialize (IH eq_refl); lia|]. destruct (g =? f); [|discriminate]. intros [= ->]. lia.
  - pose proof (tree_size_nonneg d). intros H1. specialize (IH H1). lia.
Qed.
Lemma elems_size t f : Forall (fun c => tree_size c <= tree_size t) (elems_at t f).
Proof.
  induction t as [|g v rest IH|g d _ rest IH|g d _ rest IH]; cbn [elems_at tree_size].
  - constructor.
  - assert (0 <= pval_size v) by (destruct v as [| | |[|]]; cbn; lia). eapply Forall_impl; [exact IH|]. cbn. lia.
  - pose proof (tree_size_nonneg d). eapply Forall_impl; [exact IH|]. cbn. lia.
  - pose proof (tree_size_nonneg d). pose proof (tree_size_nonneg rest).
    destruct (g =? f); [constructor; [lia|]|]; (eapply Forall_impl; [exact IH|]); cbn; lia.
Qed.
Lemma scalar_typed t f T v : tree_ok test_env 0 t -> ekind test_env 0 f = Some (TScalar T) -> scalar_at t f = Some v -> in_type T v.
Proof.
  intros Hok Hf E. induction t as [|g u rest IH|g d _ rest IH|g d _ rest IH]; cbn [tree_ok scalar_at] in *; try discriminate.
  - destruct (scalar_at rest f) as [x|]; [injection E as ->; apply IH; [apply Hok|reflexivity]|].
    destruct (Z.eqb_spec g f) as [->|]; [|discriminate]. injection E as ->. destruct Hok as [(T' & Hk & Hin) _]. congruence.
  - apply IH; [apply Hok|exact E].
  - apply IH; [apply Hok|exact E].
Qed.

Lemma poss_pos f cs : forall base, 0 <= base -> Forall cvalid cs -> Forall (fun p => 0 < p) (poss f base cs).
Proof.
  induction cs as [|c cs IH]; intros base Hb Hv; cbn [poss]; [constructor|]. inversion Hv as [|? ? Hc Hv']; subst.
  pose proof Hc as [Ht _]. apply tag_len in Ht. pose proof (zlen_nonneg (cbytes c)).
  destruct (cf c =? f); [constructor; [lia|]|]; apply IH; try assumption; lia.
Qed.

(** Presence, as seen through Offsets. *)
Lemma holds_presence m t f T : tree_ok test_env 0 t -> holds m t -> ekind test_env 0 f = Some (TScalar T) ->
  exists o, offsets_get (moff m) f = Ok (o, match scalar_at t f with Some _ => true | None => false end).
Proof.
  intros Hok (cs & HR & Hl & Hv) Hf.
  assert (Hsc : tsc f = Some (KSingle T)) by (unfold esc; rewrite Hf; reflexivity).
  assert (Hr : in_range (moff m) f).
  { pose proof (rep_len _ _ _ _ HR) as HL. unfold in_range. rewrite HL. eapply (test_env_ok 0%nat), Hsc. }
  pose proof (offsets_get_eq _ _ (rep_owf _ _ _ _ HR) Hr) as Hg. rewrite (rep_idx _ _ _ _ HR f Hr) in Hg.
  specialize (Hv f). unfold spec_run in Hv. rewrite (spec_scalar _ 0 t f T) in Hv by assumption.
  unfold view in Hv. rewrite Hsc in Hv.
  assert (Hnr : is_repeated (reps test_mt) f = false).
  { destruct (is_repeated (reps test_mt) f) eqn:E; [|reflexivity]. apply is_repeated_In in E. destruct (test_env_ok 0%nat) as (_ & _ & _ & H). destruct (H _ _ Hsc E). }
  unfold pick in Hg. rewrite Hnr in Hg.
  destruct (scalar_at t f) as [v|].
  - destruct (last (poss f 0 cs)) as [p|] eqn:E; [exists p; exact Hg|]. apply last_None in E.
    apply (poss_nil_iff f 0 cs) in E. rewrite E in Hv. discriminate Hv.
  - assert (Hocc : occ f (map crecord cs) = []).
    { destruct (occ f (map crecord cs)) as [|w l]; [done|]. exfalso. unfold last_only in Hv.
      destruct (last (w :: l)) eqn:E'; [discriminate Hv|]. apply last_None in E'. done. }
    rewrite (proj2 (poss_nil_iff f 0 cs) Hocc) in Hg. exists 0. exact Hg.
Qed.

Lemma holds_get m t f T v : tree_ok test_env 0 t -> holds m t -> ekind test_env 0 f = Some (TScalar T) ->
  scalar_at t f = Some v -> m_get T m f = Ok (stored v).
Proof.
  intros Hok (cs & HR & Hl & Hv) Hf Hs.
  assert (Hsc : tsc f = Some (KSingle T)) by (unfold esc; rewrite Hf; reflexivity).
  rewrite (rep_get _ _ _ _ _ _ (test_env_ok 0%nat) HR Hl Hsc). rewrite <- (read_single_view tsc) by exact Hsc. rewrite <- Hv.
  unfold spec_run. rewrite (spec_scalar _ 0 t f T) by assumption. rewrite Hs. unfold read_single. cbn [last].
  rewrite value_of_wire_of; [reflexivity|]. eapply scalar_typed; eassumption.
Qed.

Lemma holds_message m t x : tree_ok test_env 0 t -> holds m t ->
  m_Message test_mt m 17 x =
  match sub_at t 17 with
  | None => Ok (false, None, x)
  | Some c => let* (er, y) := m_Decode test_mt x (enc test_env 0 c) in Ok (true, er, y)
  end.
Proof.
  intros Hok (cs & HR & Hl & Hv).
  assert (Hsc : tsc 17 = Some (KSingle PBytes)) by reflexivity.
  rewrite m_Message_get, (rep_get _ _ _ _ _ _ (test_env_ok 0%nat) HR Hl Hsc). rewrite <- (read_single_view tsc) by exact Hsc. rewrite <- Hv.
  unfold spec_run. rewrite (spec_sub _ 0 t 17 0) by (assumption || reflexivity).
  destruct (sub_at t 17); reflexivity.
Qed.

Lemma holds_iter m t : tree_ok test_env 0 t -> holds m t ->
  exists it, m_Iter m 34 = Ok it /\ (length (elems_at t 34) <= length (mbuf m))%nat /\
    forall x n, iterate n test_mt it 34 x = decode_upto n test_mt x (map (enc test_env 0) (elems_at t 34)).
Proof.
  intros Hok (cs & HR & Hl & Hv).
  destruct (rep_iter _ _ _ _ 34 (test_env_ok 0%nat) HR Hl eq_refl) as (it & Hi & He). exists it. split; [exact Hi|].
  assert (Ho : occ 34 (map crecord cs) = map (fun c => WBytes (enc test_env 0 c)) (elems_at t 34)).
  { specialize (Hv 34). unfold view in Hv. change (tsc 34) with (Some KRepeated) in Hv. rewrite <- Hv. unfold spec_run.
    rewrite (spec_rep _ 0 t 34 0) by (assumption || reflexivity). reflexivity. }
  split.
  - rewrite (rep_buf _ _ _ _ HR). etransitivity; [|apply length_flat, cmin_valid, (rep_min _ _ _ _ HR)].
    rewrite <- (map_length (fun c => WBytes (enc test_env 0 c))), <- Ho, <- (map_length crecord cs). clear.
    induction (map crecord cs) as [|[g w] l IH]; cbn [occ length]; [lia|]. destruct (g =? 34); cbn [length]; lia.
  - intros x n. rewrite He, Ho. unfold read_repeated. rewrite map_map. reflexivity.
Qed.

Lemma sapp_assoc (a b c : string) : (a +:+ b) +:+ c = a +:+ (b +:+ c).
Proof. induction a as [|x a IH]; [done|]. change (String x ((a +:+ b) +:+ c) = String x (a +:+ (b +:+ c))). rewrite IH. done. Qed.
Lemma sapp_nil (a : string) : a +:+ "" = a.
Proof. induction a as [|x a IH]; [done|]. change (String x (a +:+ "") = String x a). rewrite IH. done. Qed.

Section Formats.
Context (fmt64 fmt32 : Z -> string) (quote : string -> string).
Notation WT := (WriteText fmt64 fmt32 quote).
Notation texts := (text_of fmt64 fmt32 quote).
Notation shows := (show fmt64 fmt32 quote).

Lemma put_text m t w n T nm fmt :
  tree_ok test_env 0 t -> holds m t -> ekind test_env 0 n = Some (TScalar T) ->
  (forall v, in_type T v -> fmt (stored v) = shows T v) ->
  put m w n T (nm +:+ "=") fmt =
  Ok (w +:+ match scalar_at t n with Some v => nm +:+ "=" +:+ shows T v +:+ " " | None => "" end).
Proof.
  intros Hok Hh Hk Hfmt. unfold put. destruct (holds_presence m t n T Hok Hh Hk) as (o & ->). cbn [rbind].
  destruct (scalar_at t n) as [v|] eqn:E; [|rewrite sapp_nil; reflexivity].
  rewrite (holds_get m t n T v Hok Hh Hk E). cbn [rbind]. rewrite Hfmt by (eapply scalar_typed; eassumption).
  rewrite !sapp_assoc. reflexivity.
Qed.

Lemma loop_text text els ss : forall l it sub n w,
  iterate n test_mt it 34 sub = Ok l ->
  Forall2 (fun p c => p.1 = None /\ holds p.2 c) l els ->
  Forall2 (fun c s => forall m w, holds m c -> text m w = Ok (w +:+ s)) els ss ->
  text_loop n text it sub w = Ok (w +:+ sconcat (map (fun s => "messages=<" +:+ s +:+ "> ") ss)).
Proof.
  induction els as [|c els IH] in ss |- *; intros l it sub n w Hi Hl Hs.
  - inversion Hl; subst. inversion Hs; subst. destruct n as [|n]; [discriminate Hi|]. cbn [iterate] in Hi. cbn [text_loop map sconcat fold_right].
    destruct (it_Next test_mt it 34 sub) as [[[[it' ok] er] sub']| | |] eqn:E; cbn [rbind] in *; try discriminate Hi.
    destruct ok.
    + destruct (iterate n test_mt it' 34 sub'); cbn [rbind] in Hi; discriminate Hi.
    + assert (er = None) as ->.
      { revert E. unfold it_Next. destruct (FindNextField _ _ _) as [[i [b|]]| | |]; cbn [rbind]; try discriminate.
        - destruct (m_Decode test_mt sub b) as [[e y]| | |]; cbn [rbind]; discriminate.
        - intros [= _ <- _]. reflexivity. }
      rewrite sapp_nil. reflexivity.
  - inversion Hl as [|p ? l' ? [Hp1 Hp2] Hl']; subst. inversion Hs as [|? s ? ss' Hc Hs']; subst.
    destruct n as [|n]; [discriminate Hi|]. cbn [iterate] in Hi. cbn [text_loop map sconcat fold_right].
    destruct (it_Next test_mt it 34 sub) as [[[[it' ok] er] sub']| | |] eqn:E; cbn [rbind] in *; try discriminate Hi.
    destruct ok; [|discriminate Hi].
    destruct (iterate n test_mt it' 34 sub') as [l2| | |] eqn:E2; cbn [rbind] in Hi; try discriminate Hi.
    injection Hi as <- ->. cbn [fst snd] in *. subst er. rewrite (Hc _ _ Hp2). cbn [rbind].
    rewrite (IH ss' l' it' sub' n _ E2 Hl' Hs'). rewrite !sapp_assoc. reflexivity.
Qed.

Lemma iterate_holds els : forall x,
  Forall (built test_env 0) els -> of_type test_mt x ->
  exists l, decode_each test_mt x (map (enc test_env 0) els) = Ok l /\ Forall2 (fun p c => p.1 = None /\ holds p.2 c) l els.
Proof.
  induction els as [|c els IH]; intros x Hb Hx; cbn [map decode_each]; [eexists; split; [reflexivity|constructor]|].
  inversion Hb as [|? ? Hc Hb']; subst. destruct (built_holds c Hc) as (_ & _ & _ & Hd). destruct (Hd x Hx) as (y & Hy & Hh & Ht).
  rewrite Hy. cbn [rbind]. destruct (IH y Hb' Ht) as (l & -> & Hl). cbn [rbind]. eexists. split; [reflexivity|]. constructor; [split; [reflexivity|exact Hh]|exact Hl].
Qed.

Lemma write_text : forall n t, (tdepth t < n)%nat -> tree_ok test_env 0 t -> tree_size t < 2 ^ 63 ->
  exists s, texts t s /\ forall fuel m w, (tdepth t < fuel)%nat -> holds m t -> WT fuel m w = Ok (w +:+ s).
Proof.
  induction n as [|n IH]; intros t Hn Hok Hs; [lia|].
  assert (Hsub : exists sub, Forall2 texts (option_list (sub_at t 17)) sub /\
    Forall2 (fun c s => forall fuel m w, (S (tdepth c) <= fuel)%nat -> holds m c -> WT fuel m w = Ok (w +:+ s)) (option_list (sub_at t 17)) sub).
  { destruct (sub_at t 17) as [c|] eqn:E; cbn [option_list]; [|exists []; split; constructor].
    destruct (IH c) as (s & H1 & H2); [pose proof (sub_depth _ _ _ E); lia|eapply sub_ok; eassumption|pose proof (sub_size _ _ _ E); lia|].
    exists [s]. split; repeat constructor; [exact H1|]. intros fuel m w Hf. apply H2. lia. }
  assert (Hels : exists els, Forall2 texts (elems_at t 34) els /\
    Forall2 (fun c s => forall fuel m w, (S (tdepth c) <= fuel)%nat -> holds m c -> WT fuel m w = Ok (w +:+ s)) (elems_at t 34) els).
  { pose proof (elems_depth t 34) as H1. pose proof (elems_ok t 34 Hok) as H2. pose proof (elems_size t 34) as H3.
    induction (elems_at t 34) as [|c l IHl]; [exists []; split; constructor|].
    inversion H1; inversion H2; inversion H3; subst. destruct IHl as (els & E1 & E2); try assumption.
    destruct (IH c) as (s & F1 & F2); [lia|assumption|lia|]. exists (s :: els). split; constructor; assumption. }
  destruct Hsub as (sub & Hsub1 & Hsub2). destruct Hels as (els & Hels1 & Hels2).
  eexists. split; [constructor; eassumption|]. intros fuel m w Hf Hh.
  destruct fuel as [|fuel]; [lia|]. cbn [WriteText].
  do 16 (match goal with
  | |- rbind (put m ?w0 ?k ?T ?s ?fmt) _ = _ =>
    let nm := eval vm_compute in (substring 0 (String.length s - 1) s) in
    replace (put m w0 k T s fmt) with (put m w0 k T (nm +:+ "=") fmt) by reflexivity;
    rewrite (put_text m t w0 k T nm fmt Hok Hh eq_refl) by (intros [[|]| | |[|]]; first [solve [intros []]|intros _; reflexivity]);
    cbn beta iota delta [rbind]
  end).
  match goal with |- context [?X +:+ "message=<"] => replace X with (w +:+ scalars_text fmt64 fmt32 quote t) end.
  2:{ unfold scalars_text. cbn [map sconcat fold_right test_scalars fst snd]. rewrite sapp_nil, !sapp_assoc. reflexivity. }
  rewrite (holds_message m t) by assumption. pose proof (elems_ok t 34 Hok) as Hbl. pose proof (elems_size t 34) as Hbs.
  assert (Hb : Forall (built test_env 0) (elems_at t 34)).
  { rewrite Forall_forall in *. intros c Hc. apply tree_built; [exact test_env_ok|auto|]. specialize (Hbs c Hc). cbn in Hbs. lia. }
  assert (Hz : of_type test_mt (msg_zero test_mt)) by apply replicate_length.
  destruct (holds_iter m t Hok Hh) as (it & Hit & Hlen & Hiter). rewrite Hit.
  assert (Hloop : forall x w', of_type test_mt x ->
    text_loop (fuel_of (mbuf m)) (WT fuel) it x w' = Ok (w' +:+ sconcat (map (fun s => "messages=<" +:+ s +:+ "> ") els))).
  { intros x w' Hx. destruct (iterate_holds _ x Hb Hx) as (l & Hl & Hf2). apply (loop_text _ (elems_at t 34) els l); [|exact Hf2|].
    - rewrite Hiter, decode_upto_each; [exact Hl|]. rewrite map_length. unfold fuel_of. lia.
    - pose proof (elems_depth t 34) as Hd. clear -Hels2 Hd Hf. induction Hels2 as [|c s l els' Hc H2 IHl]; [constructor|].
      inversion Hd; subst. constructor; [|apply IHl; assumption]. intros m0 w0. apply Hc. lia. }
  destruct (sub_at t 17) as [c|] eqn:E; cbn [option_list] in Hsub2.
  - inversion Hsub2 as [|? s ? ? Hc H2]; subst. inversion H2; subst.
    destruct (built_holds c) as (_ & _ & _ & Hdec).
    { apply tree_built; [exact test_env_ok|eapply sub_ok; eassumption|pose proof (sub_size _ _ _ E); lia]. }
    destruct (Hdec _ Hz) as (y & -> & Hhy & Hty). cbn [rbind]. rewrite Hc; [|pose proof (sub_depth _ _ _ E); lia|exact Hhy]. cbn [rbind].
    rewrite Hloop by exact Hty. cbn [map sconcat fold_right]. rewrite sapp_nil, !sapp_assoc. reflexivity.
  - inversion Hsub2; subst. cbn [rbind]. rewrite Hloop by exact Hz. cbn [map sconcat fold_right]. rewrite !sapp_assoc. reflexivity.
Qed.

Lemma text_of_fun t : forall s s', texts t s -> texts t s' -> s = s'.
Proof.
  assert (H : forall n t, (tdepth t < n)%nat -> forall s s', texts t s -> texts t s' -> s = s').
  { induction n as [|n IH]; intros t' Hn s s' H1 H2; [lia|]. inversion H1 as [? sub els A B]; subst. inversion H2 as [? sub' els' A' B']; subst.
    assert (sub = sub') as <-.
    { destruct (sub_at t' 17) as [c|] eqn:E; cbn [option_list] in *.
      - inversion A as [|? x ? ? Hx T1]; subst. inversion T1; subst. inversion A' as [|? x' ? ? Hx' T2]; subst. inversion T2; subst.
        f_equal. eapply (IH c); [|exact Hx|exact Hx']. pose proof (sub_depth _ _ _ E). lia.
      - inversion A. inversion A'. reflexivity. }
    assert (els = els') as <-; [|reflexivity].
    pose proof (elems_depth t' 34) as Hd. clear -IH B B' Hd Hn. revert els' B'. induction B as [|c s l els Hc B IHl]; intros els' B'; inversion B' as [|? s' ? els'' Hc' B'']; subst; [reflexivity|].
    inversion Hd; subst. f_equal; [eapply (IH c); [lia|exact Hc|exact Hc']|apply IHl; assumption]. }
  intros s s'. apply (H (S (tdepth t))). lia.
Qed.

Lemma text_exact t s : tree_ok test_env 0 t -> tree_size t < 2 ^ 63 -> texts t s ->
  exists m N, build test_env 0 t = Ok m /\
    (forall fuel w, (N <= fuel)%nat -> WT fuel m w = Ok (w +:+ s)) /\
    (forall x, of_type test_mt x -> exists y, m_Decode test_mt x (m_Encode m) = Ok (None, y) /\
       forall fuel w, (N <= fuel)%nat -> WT fuel y w = Ok (w +:+ s)).
Proof.
  intros Hok Hs Ht. destruct (built_holds t) as (m & Hm & Hh & Hd); [apply tree_built; [exact test_env_ok|assumption|assumption]|].
  destruct (write_text (S (tdepth t)) t) as (s' & Ht' & Hw); try assumption; [lia|].
  rewrite (text_of_fun t s s' Ht Ht'). exists m, (S (tdepth t)). split; [exact Hm|]. split.
  - intros fuel w Hf. apply Hw; [lia|exact Hh].
  - intros x Hx. destruct (Hd x Hx) as (y & Hy & Hhy & _). unfold enc in Hy. rewrite Hm in Hy. exists y. split; [exact Hy|].
    intros fuel w Hf. apply Hw; [lia|exact Hhy].
Qed.

Lemma text_total t : tree_ok test_env 0 t -> tree_size t < 2 ^ 63 -> exists s, texts t s.
Proof. intros Hok Hs. destruct (write_text (S (tdepth t)) t) as (s' & Ht' & _); try assumption; [lia|]. eauto. Qed.
End Formats.

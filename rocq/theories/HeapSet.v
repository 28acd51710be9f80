(** * Setters in memory: refinement of the value layer and frame *)
From Verif Require Import Heap Core HeapFacts.

(** ** Maps stay allocated *)
Lemma arr_get_res a f : arr_get a f = Panic \/ exists x, arr_get a f = Ok x.
Proof.
  unfold arr_get. destruct (_ && _); [|eauto]. destruct (a !! _); eauto.
Qed.
Lemma offsets_get_res o f : offsets_get o f = Panic \/ exists x, offsets_get o f = Ok x.
Proof.
  unfold offsets_get. destruct (arr_get_res (oa o) f) as [->|[x ->]]; cbn; [eauto|].
  destruct (negb _); eauto.
Qed.
Lemma offsets_set_res o f x :
  offsets_set o f x = Panic \/
  exists o', offsets_set o f x = Ok o' /\ (is_Some (om o) -> is_Some (om o')) /\
             length (oa o') = length (oa o).
Proof.
  unfold offsets_set. destruct (_ <=? _).
  - destruct (arr_get_res (oa o) f) as [->|[p ->]]; cbn; [eauto|].
    unfold arr_set. destruct (_ && _); cbn; [|eauto]. right. eexists. split; [done|]. cbn.
    split; [|apply insert_length].
    destruct (_ =? _); [|done]. intros [m ->]. cbn. eauto.
  - unfold arr_set. destruct (_ && _); cbn; [|eauto]. right. eexists. split; [done|]. cbn.
    split; [eauto|apply insert_length].
Qed.
Lemma adjust_map_key_res e r k o :
  adjust_map_key e r k o = Panic \/
  exists o', adjust_map_key e r k o = Ok o' /\ (is_Some (om o) -> is_Some (om o')).
Proof.
  unfold adjust_map_key. destruct (om o) as [m|] eqn:E; [|rewrite <- E; eauto].
  destruct (m !! k); [|right; exists o; split; [done|]; rewrite E; done].
  destruct (_ <? _); [|right; exists o; split; [done|]; rewrite E; done].
  destruct (offsets_set_res o k (u64 (z - r))) as [->|(o' & -> & H & _)]; [eauto|].
  right. exists o'. split; [done|]. intros _. apply H. rewrite E. eauto.
Qed.
Lemma adjust_map_keys_res e r ks : forall o,
  adjust_map_keys ks e r o = Panic \/
  exists o', adjust_map_keys ks e r o = Ok o' /\ (is_Some (om o) -> is_Some (om o')).
Proof.
  induction ks as [|k ks IH]; intros o; cbn; [eauto|].
  destruct (adjust_map_key_res e r k o) as [->|(o1 & -> & H1)]; cbn; [eauto|].
  destruct (IH o1) as [->|(o2 & -> & H2)]; [eauto|]. right. eauto.
Qed.

Lemma put_uvarint_res cap : forall x,
  put_uvarint cap x = Panic \/ exists bs, put_uvarint cap x = Ok bs /\ bs <> [].
Proof.
  induction cap as [|cap IH]; intros x; cbn; [eauto|].
  destruct (128 <=? x); [|eauto].
  destruct (IH (Z.shiftr x 7)) as [->|(bs & -> & _)]; cbn; eauto.
Qed.

Lemma put_offs_ok σ h o σ' h' : 
  match h_m h with None => True | Some l => is_Some (maps σ !! l) end ->
  (is_Some (om (hoffs σ h)) -> is_Some (om o)) -> put_offs σ h o = (σ', h') ->
  arrs σ' = arrs σ /\ h_buf h' = h_buf h /\ h_a h' = oa o /\ hoffs σ' h' = o /\
  match h_m h' with None => True | Some l => is_Some (maps σ' !! l) end /\
  (forall P, only_changes σ σ' P (fun k => h_m h = Some k)) /\
  (forall k, h_m h' = Some k -> h_m h = Some k \/ maps σ !! k = None).
Proof.
  intros Hm Ho. unfold put_offs. destruct h as [b a [l|]], o as [oa [m|]]; cbn in *.
  - intros [= <- <-]. unfold hoffs; cbn. rewrite lookup_insert. split_and!; try done; eauto.
    intros P. split_and!; cbn; eauto.
    + intros k m' Hk Hn. rewrite lookup_insert_ne by congruence. done.
    + intros k Hk. destruct (decide (l = k)) as [->|]; [rewrite lookup_insert|rewrite lookup_insert_ne by done]; eauto.
  - intros _. destruct Hm as [m Hm]. rewrite Hm in Ho. destruct Ho as [? [=]]. eauto.
  - intros [= <- <-]. unfold hoffs; cbn. rewrite lookup_insert. cbn.
    assert (Hf : maps σ !! pick (pick_map (chooser σ)) (dom (maps σ)) = None) by (apply not_elem_of_dom, pick_fresh).
    split_and!; try done; eauto.
    + intros P. split_and!; cbn; eauto.
      * intros k m' Hk Hn. rewrite lookup_insert_ne by congruence. done.
      * intros k [m' Hk]. rewrite lookup_insert_ne by congruence. eauto.
    + intros k [= <-]. auto.
  - intros [= <- <-]. unfold hoffs; cbn. split_and!; try done; intros; apply only_refl.
Qed.

(** ** Composing frames *)
Lemma own_refl σ h : own_frame σ h σ h.
Proof. split_and!; eauto. apply only_refl. Qed.

Lemma only_arrs_none σ σ' P Q a : only_changes σ σ' P Q -> arrs σ' !! a = None -> arrs σ !! a = None.
Proof.
  intros (H & _) Hn. destruct (arrs σ !! a) as [l|] eqn:E; [|done].
  destruct (H _ _ E) as (l' & E' & _). congruence.
Qed.
Lemma only_maps_none σ σ' P Q k : only_changes σ σ' P Q -> maps σ' !! k = None -> maps σ !! k = None.
Proof.
  intros (_ & _ & _ & H) Hn. destruct (maps σ !! k) as [m|] eqn:E; [|done].
  destruct (H k) as [? ?]; [eauto|]. congruence.
Qed.

Lemma own_trans σ h σ1 h1 σ2 h2 : own_frame σ h σ1 h1 -> own_frame σ1 h1 σ2 h2 -> own_frame σ h σ2 h2.
Proof.
  intros (A & B & C) (A' & B' & C'). split_and!.
  - eapply only_trans; [apply A|apply A'|auto|auto].
  - intros a j Hj. destruct (B' _ _ Hj) as [|Hn]; [auto|]. right. eapply only_arrs_none; eauto.
  - intros k Hk. destruct (C' _ Hk) as [|Hn]; [auto|]. right. eapply only_maps_none; eauto.
Qed.

(** Frame of a sequence of appends. *)
Definition gframe (Q : nat -> Prop) σ s σ' s' : Prop :=
  only_changes σ σ' (in_spare s) Q /\
  (forall a j, in_window s' a j -> in_window s a j \/ arrs σ !! a = None) /\
  (forall a j, in_spare s' a j -> in_spare s a j \/ arrs σ !! a = None).
Lemma gframe_trans (Q Q1 : nat -> Prop) σ s σ1 s1 σ2 s2 :
  gframe Q σ s σ1 s1 -> gframe Q1 σ1 s1 σ2 s2 -> (forall k, Q1 k -> Q k \/ maps σ !! k = None) ->
  gframe Q σ s σ2 s2.
Proof.
  intros (A & B & C) (A' & B' & C') HQ. split_and!.
  - eapply only_trans; [apply A|apply A'|auto|auto].
  - intros a j Hj. destruct (B' _ _ Hj) as [|Hn]; [auto|]. right. eapply only_arrs_none; eauto.
  - intros a j Hj. destruct (C' _ _ Hj) as [|Hn]; [auto|]. right. eapply only_arrs_none; eauto.
Qed.
Lemma gframe_append (Q : nat -> Prop) grow σ s bs σ' s' : swf σ s -> h_append grow σ s bs = (σ', s') -> gframe Q σ s σ' s'.
Proof.
  intros Hs E. destruct (h_append_ok _ _ _ _ _ _ Hs E) as (_ & _ & _ & _ & H1 & H2 & H3 & _).
  split_and!; [|done|done]. eapply only_weaken; [apply H1|done|done].
Qed.

Lemma spare_window σ s a j : swf σ s -> in_spare s a j -> in_window s a j.
Proof. destruct s as [s|]; [|done]. intros (l & _ & H1 & H2 & H3) [-> H]. cbn. lia. Qed.

Lemma gframe_own σ h σ' h' :
  swf σ (h_buf h) -> gframe (fun k => h_m h = Some k) σ (h_buf h) σ' (h_buf h') ->
  (forall k, h_m h' = Some k -> h_m h = Some k \/ maps σ !! k = None) -> own_frame σ h σ' h'.
Proof.
  intros Hs (A & B & C) Hm. split_and!; try done.
  eapply only_weaken; [apply A| |done]. intros a j _. apply spare_window with σ. done.
Qed.

(** ** The end of setSingle and appendSingle *)

(** The argument does not change while it is being appended. *)
Definition src_apart (σ : mem) (v : src) (P : nat -> Z -> Prop) : Prop :=
  match v with
  | Scratch _ => True
  | View s => swf σ s /\ forall a j, in_bytes s a j -> ~ P a j
  end.

Lemma src_frame σ σ' P Q v : only_changes σ σ' P Q -> src_apart σ v P -> src_bytes σ' v = src_bytes σ v.
Proof.
  intros H. destruct v as [|s]; [done|]. intros [Hs Hn]. cbn. eapply sbytes_frame; eauto.
Qed.
Lemma src_apart_frame σ σ' P Q v (P' : nat -> Z -> Prop) : only_changes σ σ' P Q -> src_apart σ v P ->
  (forall a j, P' a j -> P a j \/ arrs σ !! a = None) -> src_apart σ' v P'.
Proof.
  intros H. destruct v as [|s]; [done|]. intros [Hs Hn] HP. split; [eapply swf_frame; eauto|].
  intros a j Hj Hp. destruct (HP a j Hp) as [|Ha]; [by eapply Hn|].
  destruct s as [s|]; [|done]. destruct Hs as (l & Hl & _). destruct Hj as [-> _]. congruence.
Qed.
Lemma src_apart_weaken σ v (P P' : nat -> Z -> Prop) : src_apart σ v P -> (forall a j, P' a j -> P a j) -> src_apart σ v P'.
Proof. destruct v as [|s]; [done|]. intros [Hs Hn] H. split; [done|]. intros a j Hj Hp. eapply Hn; eauto. Qed.
Lemma src_len_ok σ v P : src_apart σ v P -> zlen (src_bytes σ v) = src_len v.
Proof. destruct v as [|s]; [done|]. intros [Hs _]. apply sbytes_length, Hs. Qed.

(** Append [tag], store the offsets, append the value. *)
Lemma app3 grow σ h o tag valLen v σ1 b1 σ2 h2 σ3 b3 σ4 b4 :
  hwf σ h -> tag <> [] -> (is_Some (om (hoffs σ h)) -> is_Some (om o)) ->
  h_append grow σ (h_buf h) tag = (σ1, b1) ->
  put_offs σ1 (put_buf h b1) o = (σ2, h2) ->
  h_append grow σ2 b1 valLen = (σ3, b3) ->
  h_append grow σ3 b3 (src_bytes σ3 v) = (σ4, b4) ->
  let h' := put_buf h2 b4 in
  hwf σ4 h' /\ own_frame σ h σ4 h' /\ hoffs σ4 h' = o /\
  only_changes σ σ4 (in_spare (h_buf h)) (fun k => h_m h = Some k) /\
  (src_apart σ v (in_spare (h_buf h)) ->
   sbytes σ4 b4 = sbytes σ (h_buf h) ++ tag ++ valLen ++ src_bytes σ v).
Proof.
  intros (Hs & Hm & Hz) Htag Ho E1 E2 E3 E4 h'.
  destruct (h_append_ok _ _ _ _ _ _ Hs E1) as (Hb1 & Hs1 & Hm1 & Hl1 & Hf1 & _ & Hsp1 & Hn1).
  assert (Hm' : match h_m (put_buf h b1) with None => True | Some l => is_Some (maps σ1 !! l) end).
  { cbn. rewrite Hm1. done. }
  assert (Ho' : is_Some (om (hoffs σ1 (put_buf h b1))) -> is_Some (om o)).
  { unfold hoffs in *. cbn in *. rewrite Hm1. done. }
  destruct (put_offs_ok _ _ _ _ _ Hm' Ho' E2) as (Ha2 & Hb2 & Hh2 & Hof2 & Hmm2 & Hfr2 & Hk2).
  cbn in Hb2, Hfr2, Hk2.
  assert (Hs2 : swf σ2 b1) by (eapply swf_frame; [apply (Hfr2 (fun _ _ => False))|done]).
  destruct (h_append_ok _ _ _ _ _ _ Hs2 E3) as (Hb3 & Hs3 & Hm3 & Hl3 & Hf3 & _ & Hsp3 & Hn3).
  destruct (h_append_ok _ _ _ _ _ _ Hs3 E4) as (Hb4 & Hs4 & Hm4 & Hl4 & Hf4 & _ & Hsp4 & Hn4).
  set (Q := fun k => h_m h = Some k).
  pose proof (gframe_append Q _ _ _ _ _ _ Hs E1) as G1.
  assert (G2 : gframe Q σ1 b1 σ2 b1).
  { split_and!; [|auto|auto]. apply Hfr2. }
  pose proof (gframe_append (fun _ => False) _ _ _ _ _ _ Hs2 E3) as G3.
  pose proof (gframe_append (fun _ => False) _ _ _ _ _ _ Hs3 E4) as G4.
  assert (G12 : gframe Q σ (h_buf h) σ2 b1) by (eapply gframe_trans; [apply G1|apply G2|auto]).
  assert (G13 : gframe Q σ (h_buf h) σ3 b3) by (eapply gframe_trans; [apply G12|apply G3|done]).
  assert (G14 : gframe Q σ (h_buf h) σ4 b4) by (eapply gframe_trans; [apply G13|apply G4|done]).
  assert (Hmaps : maps σ4 = maps σ2) by congruence.
  split_and!.
  - split_and!; cbn.
    + done.
    + rewrite Hmaps. done.
    + intros ->. destruct (Hn4 eq_refl) as [-> _]. destruct (Hn3 eq_refl) as [-> _].
      destruct (Hn1 eq_refl) as [_ ?]. done.
  - apply gframe_own; cbn; [done|done|].
    intros k Hk. destruct (Hk2 k Hk) as [|]; [auto|]. right. congruence.
  - unfold hoffs in Hof2 |- *. cbn. rewrite Hmaps. done.
  - apply G14.
  - intros Hv. rewrite Hb4, Hb3.
    assert (sbytes σ2 b1 = sbytes σ1 b1) as ->.
    { destruct b1; [|done]. cbn. unfold arr_of. rewrite Ha2. done. }
    rewrite Hb1. rewrite <- !app_assoc. do 3 f_equal.
    eapply src_frame; [apply G13|done].
Qed.

Lemma rbind_Ok {A B} (a : A) (k : A -> res B) : rbind (Ok a) k = k a.
Proof. done. Qed.

Lemma hset_new_ok grow σ h f tag valLen v :
  hwf σ h -> tag <> [] ->
  match offsets_set (hoffs σ h) f (u64 (hlen (h_buf h) + zlen tag)) with
  | Ok o' => exists σ' h', hset_new grow σ h f tag valLen v = Ok (σ', h') /\
      hwf σ' h' /\ own_frame σ h σ' h' /\ hoffs σ' h' = o' /\
      only_changes σ σ' (in_spare (h_buf h)) (fun k => h_m h = Some k) /\
      (src_apart σ v (in_spare (h_buf h)) ->
       sbytes σ' (h_buf h') = sbytes σ (h_buf h) ++ tag ++ valLen ++ src_bytes σ v)
  | Panic => hset_new grow σ h f tag valLen v = Panic
  | _ => False
  end.
Proof.
  intros Hwf Htag. unfold hset_new.
  destruct (h_append grow σ (h_buf h) tag) as [σ1 b1] eqn:E1.
  pose proof Hwf as (Hs & Hm & Hz).
  destruct (h_append_ok _ _ _ _ _ _ Hs E1) as (Hb1 & Hs1 & Hm1 & Hl1 & _).
  assert (hoffs σ1 h = hoffs σ h) as -> by (unfold hoffs; rewrite Hm1; done).
  rewrite Hl1.
  destruct (offsets_set_res (hoffs σ h) f (u64 (hlen (h_buf h) + zlen tag))) as [->|(o' & -> & Ho & _)]; [done|].
  rewrite rbind_Ok.
  destruct (put_offs _ _ _) as [σ2 h2] eqn:E2.
  destruct (h_append _ _ _ valLen) as [σ3 b3] eqn:E3.
  destruct (h_append grow σ3 b3 (src_bytes σ3 v)) as [σ4 b4] eqn:E4.
  destruct (app3 _ _ _ _ _ _ _ _ _ _ _ _ _ _ _ Hwf Htag Ho E1 E2 E3 E4) as (A & B & C & D & E).
  eexists _, _. split; [done|]. done.
Qed.

Lemma happendSingle_ok grow σ h f typ valLen v :
  hwf σ h ->
  match appendSingle (sbytes σ (h_buf h)) (hoffs σ h) f typ valLen (src_bytes σ v) with
  | Ok (bs, o') => exists σ' h', happendSingle grow σ h f typ valLen v = Ok (σ', h') /\
      hwf σ' h' /\ own_frame σ h σ' h' /\ hoffs σ' h' = o' /\
      only_changes σ σ' (in_spare (h_buf h)) (fun k => h_m h = Some k) /\
      (src_apart σ v (in_spare (h_buf h)) -> sbytes σ' (h_buf h') = bs)
  | Panic => happendSingle grow σ h f typ valLen v = Panic
  | _ => False
  end.
Proof.
  intros Hwf. unfold happendSingle, appendSingle.
  pose proof (put_uvarint_res MaxVarintLen64 (make_tag f typ)) as [->|(tag & -> & Htag)]; [done|].
  rewrite !rbind_Ok.
  destruct (h_append grow σ (h_buf h) tag) as [σ1 b1] eqn:E1.
  pose proof Hwf as (Hs & Hm & Hz).
  destruct (h_append_ok _ _ _ _ _ _ Hs E1) as (Hb1 & Hs1 & Hm1 & Hl1 & _).
  assert (hoffs σ1 h = hoffs σ h) as -> by (unfold hoffs; rewrite Hm1; done).
  assert (zlen (sbytes σ (h_buf h) ++ tag) = hlen b1) as ->.
  { rewrite Hl1. rewrite <- (sbytes_length σ _ Hs). unfold zlen. rewrite app_length. lia. }
  destruct (offsets_get_res (hoffs σ h) f) as [->|[[off ok] ->]]; [done|].
  rewrite !rbind_Ok.
  assert (Hstep : (if ok then Ok (hoffs σ h) else offsets_set (hoffs σ h) f (u64 (hlen b1))) = Panic \/
    exists o', (if ok then Ok (hoffs σ h) else offsets_set (hoffs σ h) f (u64 (hlen b1))) = Ok o' /\
      (is_Some (om (hoffs σ h)) -> is_Some (om o'))).
  { destruct ok; [eauto|]. destruct (offsets_set_res (hoffs σ h) f (u64 (hlen b1))) as [|(? & ? & ? & ?)]; eauto. }
  destruct Hstep as [->|(o' & -> & Ho)]; [done|]. rewrite !rbind_Ok.
  destruct (put_offs _ _ _) as [σ2 h2] eqn:E2.
  destruct (h_append _ _ _ valLen) as [σ3 b3] eqn:E3.
  destruct (h_append grow σ3 b3 (src_bytes σ3 v)) as [σ4 b4] eqn:E4.
  destruct (app3 _ _ _ _ _ _ _ _ _ _ _ _ _ _ _ Hwf Htag Ho E1 E2 E3 E4) as (A & B & C & D & E).
  eexists _, _. split; [done|]. split_and!; try done.
  intros Hv. cbn [put_buf h_buf]. rewrite (E Hv). rewrite <- app_assoc. done.
Qed.

(** ** setSingle *)
Lemma old_len_res buf off typ : old_len buf off typ = Panic \/ exists n, old_len buf off typ = Ok n.
Proof.
  unfold old_len, slice_from.
  repeat (match goal with |- context [if ?c then _ else _] => destruct c end; cbn [rbind]; eauto);
  destruct (uvarint _); eauto.
Qed.

Definition set_frame (σ : mem) (h : hmsg) (r : res (mem * hmsg)) : Prop :=
  match r with
  | Ok (σ', h') => hwf σ' h' /\ own_frame σ h σ' h'
  | _ => True
  end.

Lemma hset_new_frame grow σ h f tag valLen v : hwf σ h -> tag <> [] ->
  set_frame σ h (hset_new grow σ h f tag valLen v).
Proof.
  intros Hwf Ht. pose proof (hset_new_ok grow σ h f tag valLen v Hwf Ht) as H.
  destruct (offsets_set _ _ _) as [o| | |]; try done.
  - destruct H as (σ' & h' & -> & A & B & _). done.
  - rewrite H. done.
Qed.

Lemma hwf_copy σ σ' h P : hwf σ h -> maps σ' = maps σ -> only_changes σ σ' P (fun _ => False) -> hwf σ' h.
Proof.
  intros (A & B & C) Hm Hf. split_and!; [eapply swf_frame; eauto|rewrite Hm; done|done].
Qed.
Lemma own_copy σ σ' h : hwf σ h -> only_changes σ σ' (in_bytes (h_buf h)) (fun _ => False) -> own_frame σ h σ' h.
Proof.
  intros (A & B & C) Hf. split_and!; auto.
  eapply only_weaken; [apply Hf| |done]. intros a j _. apply in_bytes_window with σ. done.
Qed.

(** The cut of the old record: buffer shortened, offsets adjusted. *)
Lemma hcut_ok σ h fieldBegin fieldEnd removed hi s σ1 n buf o σ2 h2 :
  hwf σ h -> h_buf h <> None ->
  h_from (h_buf h) fieldEnd = Ok s ->
  h_copy σ (h_buf h) fieldBegin (sbytes σ s) = Ok (σ1, n) ->
  h_range (h_buf h) 0 hi = Ok buf ->
  adjust_map_keys (map_keys (mkOffsets (adjust_array (oa (hoffs σ1 h)) fieldEnd removed) (om (hoffs σ1 h))))
    fieldEnd removed (mkOffsets (adjust_array (oa (hoffs σ1 h)) fieldEnd removed) (om (hoffs σ1 h))) = Ok o ->
  put_offs σ1 (put_buf h buf) o = (σ2, h2) ->
  hwf σ2 h2 /\ own_frame σ h σ2 h2 /\ hoffs σ2 h2 = o /\ h_buf h2 = buf /\ arrs σ2 = arrs σ1 /\
  only_changes σ σ1 (in_bytes (h_buf h)) (fun _ => False).
Proof.
  intros Hwf Hnn E1 E2 E3 E4 E5. pose proof Hwf as (Hs & Hm & Hz).
  destruct (h_copy_frame _ _ _ _ _ _ Hs E2) as (Hm1 & Hf1).
  destruct (h_range_sub _ _ _ _ _ Hs E3) as (Hs3 & Hsub & Hsome).
  assert (Hwf1 : hwf σ1 h) by (eapply hwf_copy; eauto).
  assert (Hm' : match h_m (put_buf h buf) with None => True | Some l => is_Some (maps σ1 !! l) end).
  { cbn. rewrite Hm1. done. }
  assert (Ho' : is_Some (om (hoffs σ1 (put_buf h buf))) -> is_Some (om o)).
  { destruct (adjust_map_keys_res fieldEnd removed (map_keys (mkOffsets (adjust_array (oa (hoffs σ1 h)) fieldEnd removed) (om (hoffs σ1 h))))
      (mkOffsets (adjust_array (oa (hoffs σ1 h)) fieldEnd removed) (om (hoffs σ1 h)))) as [Hp|(o' & Hp & H)]; [congruence|].
    rewrite Hp in E4. injection E4 as <-. exact H. }
  destruct (put_offs_ok _ _ _ _ _ Hm' Ho' E5) as (Ha2 & Hb2 & Hh2 & Hof2 & Hmm2 & Hfr2 & Hk2).
  cbn in Hb2, Hfr2, Hk2.
  split_and!; try done.
  - split_and!; [|done|].
    + rewrite Hb2. eapply swf_frame; [apply (Hfr2 (fun _ _ => False))|]. eapply swf_frame; [apply Hf1|done].
    + rewrite Hb2. intros ->. exfalso. apply Hnn.
      destruct (h_buf h) as [b|]; [|done]. destruct (proj2 Hsome) as [? [=]]. eauto.
  - eapply own_trans; [apply (own_copy _ _ _ Hwf Hf1)|].
    split_and!.
    + apply Hfr2.
    + rewrite Hb2. intros a j Hj. left. apply Hsub, Hj.
    + intros k Hk. apply Hk2, Hk.
Qed.

(** If an offset is found, the buffer is not nil. *)
Lemma get_buf_some σ h f off : hwf σ h -> offsets_get (hoffs σ h) f = Ok (off, true) -> h_buf h <> None.
Proof.
  intros (_ & _ & Hz) E Hn. specialize (Hz Hn). revert E. unfold offsets_get, hoffs, arr_get; cbn.
  destruct (_ && _) eqn:Hr; cbn; [|done].
  destruct (h_a h !! Z.to_nat f) as [x|] eqn:Hx; cbn; [|done].
  rewrite Forall_lookup in Hz. rewrite (Hz _ _ Hx). cbn. intros [= <-].
Qed.

Lemma hsetSingle_frame grow σ h f typ valLen v :
  hwf σ h -> set_frame σ h (hsetSingle grow σ h f typ valLen v).
Proof.
  intros Hwf. unfold hsetSingle.
  destruct (put_uvarint_res MaxVarintLen64 (make_tag f typ)) as [->|(tag & -> & Htag)]; [done|].
  rewrite rbind_Ok.
  destruct (offsets_get_res (hoffs σ h) f) as [->|[[off ok] Eg]]; [done|]. rewrite Eg, rbind_Ok.
  destruct ok; [|apply hset_new_frame; done].
  pose proof (get_buf_some _ _ _ _ Hwf Eg) as Hnn.
  destruct (old_len_res (sbytes σ (h_buf h)) off typ) as [->|[n ->]]; [done|]. rewrite rbind_Ok.
  destruct (n =? _).
  - destruct (h_copy σ (h_buf h) off valLen) as [[σ1 n1]| | |] eqn:E1; try done. rewrite rbind_Ok.
    destruct (h_copy_frame _ _ _ _ _ _ (proj1 Hwf) E1) as (Hm1 & Hf1).
    assert (Hwf1 : hwf σ1 h) by (eapply hwf_copy; eauto).
    destruct (h_copy σ1 (h_buf h) _ _) as [[σ2 n2]| | |] eqn:E2; try done. rewrite rbind_Ok.
    destruct (h_copy_frame _ _ _ _ _ _ (proj1 Hwf1) E2) as (Hm2 & Hf2).
    split; [eapply hwf_copy; eauto|].
    eapply own_trans; [apply own_copy; eauto|apply own_copy; eauto].
  - destruct (h_from (h_buf h) _) as [s| | |] eqn:E1; try done. rewrite rbind_Ok.
    destruct (h_copy σ (h_buf h) _ _) as [[σ1 n1]| | |] eqn:E2; try done. rewrite rbind_Ok.
    destruct (h_range (h_buf h) 0 _) as [buf| | |] eqn:E3; try done. rewrite rbind_Ok.
    destruct (adjust_map_keys _ _ _ _) as [o| | |] eqn:E4; try done. rewrite rbind_Ok.
    destruct (put_offs _ _ _) as [σ2 h2] eqn:E5.
    destruct (hcut_ok _ _ _ _ _ _ _ _ _ _ _ _ _ Hwf Hnn E1 E2 E3 E4 E5) as (A & B & _).
    pose proof (hset_new_frame grow σ2 h2 f tag valLen v A Htag) as H.
    destruct (hset_new _ _ _ _ _ _ _) as [[σ3 h3]| | |]; try done.
    destruct H as [H1 H2]. split; [done|]. eapply own_trans; eauto.
Qed.

Definition refines_msg (r : res (list Z * offsets)) (hr : res (mem * hmsg)) : Prop :=
  match r with
  | Ok (bs, o) => exists σ' h', hr = Ok (σ', h') /\ sbytes σ' (h_buf h') = bs /\ hoffs σ' h' = o
  | Panic => hr = Panic
  | PastLen => True
  | OutOfFuel => False
  end.

Lemma hset_new_refines grow σ h f tag valLen v :
  hwf σ h -> tag <> [] -> src_apart σ v (in_spare (h_buf h)) ->
  refines_msg
    (let buf := sbytes σ (h_buf h) ++ tag in
     let offset := zlen buf in
     let* o := offsets_set (hoffs σ h) f (u64 offset) in
     Ok (buf ++ valLen ++ src_bytes σ v, o))
    (hset_new grow σ h f tag valLen v).
Proof.
  intros Hwf Ht Hv. pose proof (hset_new_ok grow σ h f tag valLen v Hwf Ht) as H. cbv zeta.
  assert (zlen (sbytes σ (h_buf h) ++ tag) = hlen (h_buf h) + zlen tag) as ->.
  { rewrite <- (sbytes_length σ _ (proj1 Hwf)). unfold zlen. rewrite app_length. lia. }
  destruct (offsets_set _ _ _) as [o| | |]; try done; cbn [rbind refines_msg].
  destruct H as (σ' & h' & -> & A & B & C & _ & D). eexists _, _. split; [done|]. split; [|done].
  rewrite (D Hv). rewrite <- app_assoc. done.
Qed.

Lemma hsetSingle_refines grow σ h f typ valLen v :
  hwf σ h ->
  src_apart σ v (in_spare (h_buf h)) ->
  (offsets_get (hoffs σ h) f = Ok (0, false) \/ src_apart σ v (in_window (h_buf h))) ->
  refines_msg (setSingle (sbytes σ (h_buf h)) (hoffs σ h) f typ valLen (src_bytes σ v))
              (hsetSingle grow σ h f typ valLen v).
Proof.
  intros Hwf Hv Hv'. unfold hsetSingle, setSingle, setSingle_ord.
  destruct (put_uvarint_res MaxVarintLen64 (make_tag f typ)) as [->|(tag & -> & Htag)]; [done|].
  rewrite !rbind_Ok.
  destruct (offsets_get_res (hoffs σ h) f) as [->|[[off ok] Eg]]; [done|]. rewrite Eg, !rbind_Ok.
  destruct ok; [|apply hset_new_refines; done].
  destruct Hv' as [Hv'|Hvw]; [congruence|]. clear Hv.
  pose proof (get_buf_some _ _ _ _ Hwf Eg) as Hnn.
  destruct (old_len_res (sbytes σ (h_buf h)) off typ) as [->|[n ->]]; [done|]. rewrite !rbind_Ok.
  rewrite (src_len_ok _ _ _ Hvw).
  pose proof Hwf as (Hs & Hm & Hz).
  destruct (n =? _).
  - pose proof (h_copy_ok σ (h_buf h) off valLen Hs) as Hc1.
    destruct (copy_at _ _ _) as [[b1 n1]| | |]; try done; [|rewrite Hc1; done]. rewrite rbind_Ok.
    destruct Hc1 as (σ1 & -> & Hb1 & Hm1 & Hf1). rewrite rbind_Ok.
    assert (Hwf1 : hwf σ1 h) by (eapply hwf_copy; eauto).
    assert (Hf1' : only_changes σ σ1 (in_window (h_buf h)) (fun _ => False)).
    { eapply only_weaken; [apply Hf1| |done]. intros a j _. apply in_bytes_window with σ. done. }
    rewrite (src_frame _ _ _ _ _ Hf1' Hvw).
    pose proof (h_copy_ok σ1 (h_buf h) (u64 (off + u64 n1)) (src_bytes σ v) (proj1 Hwf1)) as Hc2.
    rewrite Hb1 in Hc2.
    destruct (copy_at _ _ _) as [[b2 n2]| | |]; try done; [|rewrite Hc2; done]. rewrite rbind_Ok.
    destruct Hc2 as (σ2 & -> & Hb2 & Hm2 & Hf2). rewrite rbind_Ok.
    eexists _, _. split; [done|]. split; [done|]. unfold hoffs. rewrite Hm2, Hm1. done.
  - set (fieldBegin := u64 (off - u64 (zlen tag))). set (fieldEnd := u64 (off + u64 n)).
    pose proof (h_from_ok σ (h_buf h) fieldEnd Hs) as H1.
    destruct (slice_from _ _) as [src1| | |]; try done; [|rewrite H1; done]. rewrite rbind_Ok.
    destruct H1 as (s & E1 & Hsb & Hss & _). rewrite E1, rbind_Ok.
    pose proof (h_copy_ok σ (h_buf h) fieldBegin (sbytes σ s) Hs) as H2. rewrite Hsb in *.
    destruct (copy_at _ _ _) as [[b1 n1]| | |] eqn:Ecopy; try done; [|rewrite H2; done]. rewrite rbind_Ok.
    destruct H2 as (σ1 & E2 & Hb1 & Hm1 & Hf1). rewrite E2, rbind_Ok.
    assert (Hwf1 : hwf σ1 h) by (eapply hwf_copy; eauto).
    assert (zlen b1 = hlen (h_buf h)) as ->.
    { rewrite <- Hb1. apply sbytes_length, Hwf1. }
    unfold slice_to.
    pose proof (h_range_ok σ1 (h_buf h) 0 (u64 (hlen (h_buf h) - u64 (fieldEnd - fieldBegin))) (proj1 Hwf1)) as H3.
    rewrite Hb1 in H3.
    destruct (slice_range _ _ _) as [b2| | |]; try done; [|rewrite H3; done]. rewrite rbind_Ok.
    destruct H3 as (buf & E3 & Hb2 & Hs2 & Hsub2 & _). rewrite E3, rbind_Ok.
    assert (Hoff : hoffs σ1 h = hoffs σ h) by (unfold hoffs; rewrite Hm1; done). rewrite Hoff.
    destruct (adjust_map_keys_res fieldEnd (u64 (fieldEnd - fieldBegin))
       (map_keys (mkOffsets (adjust_array (oa (hoffs σ h)) fieldEnd (u64 (fieldEnd - fieldBegin))) (om (hoffs σ h))))
       (mkOffsets (adjust_array (oa (hoffs σ h)) fieldEnd (u64 (fieldEnd - fieldBegin))) (om (hoffs σ h))))
       as [->|(o & E4 & _)]; [done|]. rewrite E4, !rbind_Ok.
    destruct (put_offs σ1 (put_buf h buf) o) as [σ2 h2] eqn:E5.
    rewrite <- Hoff in E4. rewrite <- Hsb in E2.
    destruct (hcut_ok _ _ _ _ _ _ _ _ _ _ _ _ _ Hwf Hnn E1 E2 E3 E4 E5) as (A & B & C & D & E & F).
    assert (Hsb2 : sbytes σ2 (h_buf h2) = b2).
    { rewrite D. rewrite <- Hb2. destruct buf; [|done]. cbn. unfold arr_of. rewrite E. done. }
    assert (Hv2 : src_apart σ2 v (in_spare (h_buf h2)) /\ src_bytes σ2 v = src_bytes σ v).
    { split.
      - eapply src_apart_frame; [apply B|apply Hvw|]. intros a j Hj. apply B.
        apply spare_window with σ2; [apply A|done].
      - eapply src_frame; [apply B|apply Hvw]. }
    destruct Hv2 as [Hv2 Hv2e].
    pose proof (hset_new_refines grow σ2 h2 f tag valLen v A Htag Hv2) as H.
    rewrite Hsb2, C, Hv2e in H. exact H.
Qed.

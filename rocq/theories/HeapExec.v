(** * Calls in memory refine calls on values *)
From Verif Require Import Heap HeapApi Core HeapFacts HeapSet.

Lemma rbind_assoc {A B C} (m : res A) (f : A -> res B) (g : B -> res C) :
  rbind (rbind m f) g = rbind m (fun a => rbind (f a) g).
Proof. destruct m; done. Qed.

(** ** Setters *)
Lemma m_set_args T m f v :
  m_set T m f v =
    let* (typ, valLen, val) := set_args T v in
    let* (b, o) := setSingle (mbuf m) (moff m) f typ valLen val in Ok (mkMsg b o).
Proof.
  unfold m_set, m_set_ord.
  destruct T, v; try done; cbn [set_args];
    unfold SetBool_ord, SetInt32_ord, SetInt64_ord, SetUint32_ord, SetUint64_ord, SetZigZagInt32_ord,
      SetZigZagInt64_ord, SetFixedUint32_ord, SetFixedUint64_ord, SetFixedInt32_ord, SetFixedInt64_ord,
      SetFloat32_ord, SetFloat64_ord, SetString_ord, SetBytes_ord, setSingle;
    rewrite ?rbind_assoc; try done;
    match goal with |- context [rbind ?p _] => destruct p; done end.
Qed.

Definition refines (σ : mem) (h : hmsg) (r : res msg) (hr : res (mem * hmsg)) : Prop :=
  match r with
  | Ok m => exists σ' h', hr = Ok (σ', h') /\ abs σ' h' = m /\ hwf σ' h' /\ own_frame σ h σ' h'
  | Panic => hr = Panic
  | OutOfFuel => hr = OutOfFuel
  | PastLen => True
  end.

Lemma set_args_res T v : set_args T v = Panic \/ exists x, set_args T v = Ok x.
Proof.
  destruct T, v; cbn [set_args]; eauto; unfold put_varint;
    match goal with |- context [put_uvarint ?c ?x] => destruct (put_uvarint_res c x) as [->|(vb & -> & _)] end;
    cbn; eauto.
Qed.

Lemma refines_single σ h r hr :
  hwf σ h -> set_frame σ h hr -> refines_msg r hr ->
  refines σ h (let* (b, o) := r in Ok (mkMsg b o)) hr.
Proof.
  intros Hwf Hf Hr. destruct r as [[b o]| | |]; try done.
  cbn in *. destruct Hr as (σ' & h' & -> & Hb & Ho). cbn in Hf. destruct Hf as [Hf1 Hf2].
  exists σ', h'. split_and!; try done. unfold abs. rewrite Hb, Ho. done.
Qed.

Lemma h_set_refines grow T σ h f v : hwf σ h ->
  refines σ h (m_set T (abs σ h) f v) (h_set grow T σ h f v).
Proof.
  intros Hwf. rewrite m_set_args. unfold h_set.
  destruct (set_args_res T v) as [->|[[[typ valLen] val] ->]]; [done|]. rewrite !rbind_Ok.
  apply refines_single; [done|apply hsetSingle_frame; done|].
  apply (hsetSingle_refines grow σ h f typ valLen (Scratch val)); try done. right. done.
Qed.

Lemma h_append_bytes_refines grow σ h f v : hwf σ h -> src_apart σ v (in_spare (h_buf h)) ->
  refines σ h (m_append (abs σ h) f (src_bytes σ v)) (h_append_bytes grow σ h f v).
Proof.
  intros Hwf Hv. unfold m_append, AppendBytes, h_append_bytes.
  rewrite (src_len_ok _ _ _ Hv).
  destruct (put_uvarint_res MaxVarintLen64 (u64 (src_len v))) as [->|(valLen & -> & _)]; [done|].
  rewrite !rbind_Ok.
  pose proof (happendSingle_ok grow σ h f WireBytes valLen v Hwf) as H. cbn [mbuf moff abs].
  destruct (appendSingle _ _ _ _ _ _) as [[b o]| | |]; try done.
  destruct H as (σ' & h' & -> & A & B & C & _ & D). cbn.
  exists σ', h'. split_and!; try done. unfold abs. rewrite (D Hv), C. done.
Qed.

Lemma h_append_bytes_frame grow σ h f v : hwf σ h -> set_frame σ h (h_append_bytes grow σ h f v).
Proof.
  intros Hwf. unfold h_append_bytes.
  destruct (put_uvarint_res MaxVarintLen64 (u64 (src_len v))) as [->|(valLen & -> & _)]; [done|].
  rewrite !rbind_Ok.
  pose proof (happendSingle_ok grow σ h f WireBytes valLen v Hwf) as H.
  destruct (appendSingle _ _ _ _ _ _) as [[b o]| | |]; try done; [|rewrite H; done].
  destruct H as (σ' & h' & -> & A & B & C & _ & D). done.
Qed.

Lemma h_set_view_refines grow σ h f s : hwf σ h -> swf σ s ->
  (forall a j, in_bytes s a j -> ~ in_spare (h_buf h) a j) ->
  (offsets_get (hoffs σ h) f = Ok (0, false) \/ forall a j, in_bytes s a j -> ~ in_window (h_buf h) a j) ->
  refines σ h (m_set PBytes (abs σ h) f (VBytes (Some (sbytes σ s)))) (h_set_view grow σ h f s).
Proof.
  intros Hwf Hs Hv Hv'. rewrite m_set_args. unfold h_set_view. cbn [set_args default from_option id].
  rewrite (sbytes_length σ s Hs).
  destruct (put_uvarint_res MaxVarintLen64 (u64 (hlen s))) as [->|(valLen & -> & _)]; [done|].
  cbn [rbind].
  apply refines_single; [done|apply hsetSingle_frame; done|].
  apply (hsetSingle_refines grow σ h f WireBytes valLen (View s)); try done.
  destruct Hv'; [auto|]. right. done.
Qed.

Lemma h_set_view_frame grow σ h f s : hwf σ h -> set_frame σ h (h_set_view grow σ h f s).
Proof.
  intros Hwf. unfold h_set_view.
  destruct (put_uvarint_res MaxVarintLen64 (u64 (hlen s))) as [->|(valLen & -> & _)]; [done|].
  apply hsetSingle_frame. done.
Qed.
Lemma h_set_frame grow T σ h f v : hwf σ h -> set_frame σ h (h_set grow T σ h f v).
Proof.
  intros Hwf. unfold h_set.
  destruct (set_args_res T v) as [->|[[[typ valLen] val] ->]]; [done|].
  apply hsetSingle_frame. done.
Qed.

(** ** Getters *)
Lemma with_offset_ok {A B} σ h f (da : A) (db : B) ka kb (R : A -> B -> Prop) :
  hwf σ h -> R da db ->
  (forall off, offsets_get (hoffs σ h) f = Ok (off, true) ->
     match ka off with
     | Ok a => exists b, kb off = Ok b /\ R a b
     | Panic => kb off = Panic
     | OutOfFuel => kb off = OutOfFuel
     | PastLen => True
     end) ->
  match with_offset (hoffs σ h) f da ka with
  | Ok a => exists b, with_offset (hoffs σ h) f db kb = Ok b /\ R a b
  | Panic => with_offset (hoffs σ h) f db kb = Panic
  | OutOfFuel => with_offset (hoffs σ h) f db kb = OutOfFuel
  | PastLen => True
  end.
Proof.
  intros Hwf Hd Hk. unfold with_offset.
  destruct (offsets_get_res (hoffs σ h) f) as [->|[[off ok] E]]; [done|]. rewrite E, !rbind_Ok.
  destruct ok; [|eauto]. apply Hk, E.
Qed.

Definition refines_val {A B} (R : A -> B -> Prop) (r : res A) (hr : res B) : Prop :=
  match r with
  | Ok a => exists b, hr = Ok b /\ R a b
  | Panic => hr = Panic
  | OutOfFuel => hr = OutOfFuel
  | PastLen => True
  end.
Lemma refines_val_map {A B A' B'} (R : A -> B -> Prop) (R' : A' -> B' -> Prop) r hr k hk :
  refines_val R r hr -> (forall a b, R a b -> refines_val R' (k a) (hk b)) ->
  refines_val R' (rbind r k) (rbind hr hk).
Proof.
  intros H Hk. destruct r as [a| | |]; cbn in *; [|subst; done|done|subst; done].
  destruct H as (b & -> & Hab). apply Hk, Hab.
Qed.

Lemma varint_at_ok {A} σ h f dflt (d : A) (g : list Z -> A) (kv : list Z -> res A) (inj : A -> pval) k :
  hwf σ h -> inj d = dflt -> (forall b, kv b = Ok (g b)) -> (forall b, inj (g b) = k b) ->
  refines_val (fun a b => hval_of σ b = inj a)
    (with_offset (hoffs σ h) f d (fun offset =>
       let* b := slice_from (sbytes σ (h_buf h)) offset in kv b))
    (varint_at σ h f dflt k).
Proof.
  intros Hwf Hd Hkv Hg. unfold varint_at.
  apply (with_offset_ok σ h f _ _ _ _ (fun a b => hval_of σ b = inj a)); [done|done|].
  intros off _. pose proof (h_from_ok σ (h_buf h) off (proj1 Hwf)) as H.
  destruct (slice_from _ _) as [bs| | |]; try done; cbn; [|rewrite H; done].
  rewrite Hkv. destruct H as (d' & -> & Hb & _). cbn. eexists. split; [done|]. cbn. rewrite Hb, Hg. done.
Qed.

Lemma fixed_at_ok σ h f n k :
  hwf σ h ->
  refines_val (fun a b => hval_of σ b = VNum a)
    (with_offset (hoffs σ h) f 0 (fun offset =>
       let* b := slice_range (sbytes σ (h_buf h)) offset (u64 (offset + n)) in k b))
    (fixed_at σ h f n k).
Proof.
  intros Hwf. unfold fixed_at.
  apply (with_offset_ok σ h f _ _ _ _ (fun a b => hval_of σ b = VNum a)); [done|done|].
  intros off _. pose proof (h_range_ok σ (h_buf h) off (u64 (off + n)) (proj1 Hwf)) as H.
  destruct (slice_range _ _ _) as [bs| | |]; try done; cbn [rbind]; [|rewrite H; done].
  destruct H as (d' & -> & Hb & _). cbn [rbind]. rewrite Hb.
  destruct (k bs); cbn [rbind]; eauto.
Qed.

Lemma slice_at_ok σ h f :
  hwf σ h ->
  refines_val (fun (a : option (list Z)) (b : option (option slice)) =>
      match a, b with
      | None, None => True
      | Some bs, Some (Some d) => sbytes σ (Some d) = bs /\ swf σ (Some d) /\ sub_window (Some d) (h_buf h)
      | _, _ => False
      end)
    (GetBytes (sbytes σ (h_buf h)) (hoffs σ h) f)
    (slice_at σ h f).
Proof.
  intros Hwf. unfold slice_at, GetBytes.
  apply (with_offset_ok σ h f _ _ _ _ (fun (a : option (list Z)) (b : option (option slice)) =>
      match a, b with
      | None, None => True
      | Some bs, Some (Some d) => sbytes σ (Some d) = bs /\ swf σ (Some d) /\ sub_window (Some d) (h_buf h)
      | _, _ => False
      end)); [done|done|].
  intros off Hg. pose proof (get_buf_some _ _ _ _ Hwf Hg) as Hnn.
  pose proof (h_from_ok σ (h_buf h) off (proj1 Hwf)) as H.
  destruct (slice_from _ _) as [bs| | |]; try done; cbn [rbind]; [|rewrite H; done].
  destruct H as (d' & -> & Hb & _). cbn [rbind]. rewrite Hb.
  destruct (uvarint bs) as [len lenSize].
  pose proof (h_range_ok σ (h_buf h) (u64 (off + u64 lenSize)) (u64 (u64 (off + u64 lenSize) + len)) (proj1 Hwf)) as H.
  destruct (slice_range _ _ _) as [bs'| | |]; try done; cbn [rbind]; [|rewrite H; done].
  destruct H as (d & -> & Hb' & Hs' & Hsub & Hsome & _). cbn [rbind].
  destruct d as [d|].
  - eexists. split; [done|]. done.
  - destruct (h_buf h); [|done]. destruct Hsome as [? [=]]. eauto.
Qed.

Lemma GetString_bytes buf o f :
  GetString buf o f = let* b := GetBytes buf o f in Ok (default [] b).
Proof.
  unfold GetString, GetBytes, with_offset.
  destruct (offsets_get_res o f) as [->|[[off ok] ->]]; [done|]. rewrite !rbind_Ok.
  destruct ok; [|done].
  destruct (slice_from buf off) as [b| | |]; try done. rewrite !rbind_Ok.
  destruct (uvarint b) as [len lenSize].
  destruct (slice_range _ _ _); done.
Qed.

Lemma h_get_refines T σ h f : hwf σ h ->
  refines_val (fun v hv => hval_of σ hv = v) (m_get T (abs σ h) f) (h_get T σ h f).
Proof.
  intros Hwf. 
  assert (Hv : forall A (g : res A) hr (inj : A -> pval),
     refines_val (fun a b => hval_of σ b = inj a) g hr ->
     refines_val (fun v hv => hval_of σ hv = v) (let* a := g in Ok (inj a)) hr).
  { intros A g hr inj. destruct g; cbn; done. }
  assert (Hu : forall (b : list Z) A (g : Z -> A), (let '(x, _) := uvarint b in Ok (g x)) = Ok (g (uvarint b).1)).
  { intros b A g. destruct (uvarint b); done. }
  assert (Hz : forall (b : list Z) A (g : Z -> A), (let '(x, _) := varint b in Ok (g x)) = Ok (g (varint b).1)).
  { intros b A g. destruct (varint b); done. }
  destruct T; cbn [m_get h_get abs mbuf moff].
  - apply Hv. eapply varint_at_ok with (g := fun b => _); [done|done|intros b; apply (Hu b)|done].
  - apply Hv. eapply varint_at_ok with (g := fun b => _); [done|done|intros b; apply (Hu b)|done].
  - apply Hv. eapply varint_at_ok with (g := fun b => _); [done|done|intros b; apply (Hu b)|done].
  - apply Hv. eapply varint_at_ok with (g := fun b => _); [done|done|intros b; apply (Hu b)|done].
  - apply Hv. eapply varint_at_ok with (g := fun b => _); [done|done|intros b; apply (Hu b _ (fun x => x))|done].
  - apply Hv. eapply varint_at_ok with (g := fun b => _); [done|done|intros b; apply (Hz b)|done].
  - apply Hv. eapply varint_at_ok with (g := fun b => _); [done|done|intros b; apply (Hz b _ (fun x => x))|done].
  - apply Hv, fixed_at_ok; done.
  - apply Hv, fixed_at_ok; done.
  - apply Hv, fixed_at_ok; done.
  - apply Hv, fixed_at_ok; done.
  - apply Hv, fixed_at_ok; done.
  - apply Hv, fixed_at_ok; done.
  - rewrite GetString_bytes, rbind_assoc. eapply refines_val_map; [apply slice_at_ok; done|].
    intros [bs|] [[d|]|]; try done.
    + intros (Hb & _). cbn [rbind refines_val]. eexists. split; [done|]. cbn in *. congruence.
    + intros _. cbn. eexists. split; [done|]. done.
  - eapply refines_val_map; [apply slice_at_ok; done|].
    intros [bs|] [[d|]|]; try done.
    + intros (Hb & _). cbn [rbind refines_val]. eexists. split; [done|]. cbn in *. congruence.
    + intros _. cbn. eexists. split; [done|]. done.
Qed.

(** ** Decode, Reset *)
Lemma dec_upd_res reps o f x :
  (if is_repeated reps f then
     let* (_, ok) := offsets_get o f in
     if ok then Ok o else offsets_set o f x
   else offsets_set o f x) = Panic \/
  exists o', (if is_repeated reps f then
     let* (_, ok) := offsets_get o f in
     if ok then Ok o else offsets_set o f x
   else offsets_set o f x) = Ok o' /\ (is_Some (om o) -> is_Some (om o')).
Proof.
  destruct (is_repeated reps f).
  - destruct (offsets_get_res o f) as [->|[[off ok] ->]]; [eauto|]. cbn. destruct ok; [eauto|].
    destruct (offsets_set_res o f x) as [|(? & ? & ? & ?)]; eauto.
  - destruct (offsets_set_res o f x) as [|(? & ? & ? & ?)]; eauto.
Qed.

Lemma decode_loop_map fuel buf reps : forall idx o err o',
  decode_loop fuel buf reps idx o = Ok (err, o') -> is_Some (om o) -> is_Some (om o').
Proof.
  induction fuel as [|fuel IH]; intros idx o err o'; cbn [decode_loop]; [done|].
  destruct (idx =? zlen buf); [intros [= _ <-]; done|].
  destruct (zlen buf <? idx); [intros [= _ <-]; done|].
  destruct (slice_from buf idx) as [b| | |]; try done. cbn [rbind].
  destruct (uvarint b) as [tag size].
  destruct (size =? 0); [intros [= _ <-]; done|].
  destruct (zlen buf <=? i64 (idx + size)); [intros [= _ <-]; done|].
  destruct (dec_upd_res reps o (i64 (Z.shiftr tag 3)) (u64 (i64 (idx + size)))) as [->|(o1 & -> & Ho)]; [done|].
  cbn [rbind].
  destruct (slice_from buf (i64 (idx + size))) as [b'| | |]; try done. cbn [rbind].
  destruct (fieldDataSize _ _) as [s| | |]; try done. cbn [rbind].
  destruct (s =? 0); [intros [= _ <-]; done|].
  intros E Hs. eapply IH; eauto.
Qed.

Lemma Decode_map fuel buf o reps err o' :
  Decode fuel buf o reps = Ok (err, o') -> is_Some (om o) -> is_Some (om o').
Proof.
  intros E H. eapply decode_loop_map; [apply E|]. cbn. destruct H as [m ->]. eauto.
Qed.

(** Changing the buffer and the offsets: only the struct's own map changes. *)
Definition map_frame (σ : mem) (h : hmsg) (s : option slice) (σ' : mem) (h' : hmsg) : Prop :=
  arrs σ' = arrs σ /\ h_buf h' = s /\
  (forall P, only_changes σ σ' P (fun k => h_m h = Some k)) /\
  (forall k, h_m h' = Some k -> h_m h = Some k \/ maps σ !! k = None).

Lemma h_decode_refines mt σ h s : hwf σ h -> swf σ s ->
  refines_val (fun a b => a.1 = b.1.1 /\ abs b.1.2 b.2 = a.2 /\ hwf b.1.2 b.2 /\ map_frame σ h s b.1.2 b.2)
    (m_Decode mt (abs σ h) (sbytes σ s)) (h_decode mt σ h s).
Proof.
  intros Hwf Hs. unfold m_Decode, h_decode. cbn [moff abs].
  destruct (Decode _ _ _ _) as [[err o]| | |] eqn:E; try done. cbn [rbind].
  destruct (put_offs σ (put_buf h s) o) as [σ' h'] eqn:E2.
  assert (Ho : is_Some (om (hoffs σ (put_buf h s))) -> is_Some (om o)).
  { intros H. eapply Decode_map; [apply E|apply H]. }
  destruct (put_offs_ok σ (put_buf h s) _ _ _ (proj1 (proj2 Hwf)) Ho E2) as (Ha2 & Hb2 & Hh2 & Hof2 & Hmm2 & Hfr2 & Hk2).
  cbn in Hb2, Hfr2, Hk2.
  eexists. split; [done|]. cbn.
  assert (Hbytes : sbytes σ' s = sbytes σ s).
  { destruct s; [|done]. cbn. unfold arr_of. rewrite Ha2. done. }
  split_and!; try done.
  - unfold abs. rewrite Hof2, Hb2, Hbytes. done.
  - split_and!; [|done|].
    + rewrite Hb2. eapply swf_frame; [apply (Hfr2 (fun _ _ => False))|done].
    + rewrite Hb2. intros ->. rewrite Hh2. cbn in E. unfold Decode in E. cbn in E.
      injection E as _ <-. cbn. apply Forall_forall. intros x Hx. apply elem_of_list_fmap in Hx.
      destruct Hx as (y & -> & _). done.
Qed.

Lemma h_reset_refines σ h s : hwf σ h -> swf σ s ->
  refines_val (fun a b => abs b.1 b.2 = a /\ hwf b.1 b.2 /\ map_frame σ h s b.1 b.2)
    (m_Reset (abs σ h) (sbytes σ s)) (h_reset σ h s).
Proof.
  intros Hwf Hs. unfold m_Reset, h_reset. rewrite (sbytes_length σ s Hs). cbn [moff abs].
  destruct (0 <? hlen s); [done|]. cbn.
  destruct (put_offs σ (put_buf h s) (offsets_clear (hoffs σ h))) as [σ' h'] eqn:E2.
  assert (Ho : is_Some (om (hoffs σ (put_buf h s))) -> is_Some (om (offsets_clear (hoffs σ h)))).
  { cbn. unfold hoffs; cbn. intros [m ->]. eauto. }
  destruct (put_offs_ok σ (put_buf h s) _ _ _ (proj1 (proj2 Hwf)) Ho E2) as (Ha2 & Hb2 & Hh2 & Hof2 & Hmm2 & Hfr2 & Hk2).
  cbn in Hb2, Hfr2, Hk2.
  eexists. split; [done|]. cbn.
  assert (Hbytes : sbytes σ' s = sbytes σ s).
  { destruct s; [|done]. cbn. unfold arr_of. rewrite Ha2. done. }
  split_and!; try done.
  - unfold abs. rewrite Hof2, Hb2, Hbytes. done.
  - split_and!; [|done|].
    + rewrite Hb2. eapply swf_frame; [apply (Hfr2 (fun _ _ => False))|done].
    + intros _. rewrite Hh2. cbn. apply Forall_forall. intros x Hx. apply elem_of_list_fmap in Hx.
      destruct Hx as (y & -> & _). done.
Qed.

(** ** Sub-messages and iterators *)
Lemma abs_frame σ σ' P Q h : only_changes σ σ' P Q -> hwf σ h ->
  (forall a j, in_window (h_buf h) a j -> ~ P a j) -> (forall k, h_m h = Some k -> ~ Q k) ->
  abs σ' h = abs σ h /\ hwf σ' h.
Proof.
  intros Hf (Hs & Hm & Hz) HP HQ. split.
  - unfold abs. f_equal.
    + eapply sbytes_frame; [apply Hf|done|]. intros a j Hj. apply HP. eapply in_bytes_window; eauto.
    + unfold hoffs. f_equal. destruct (h_m h) as [k|]; [|done]. destruct Hm as [m Hm]. rewrite Hm.
      apply Hf; [done|]. apply HQ. done.
  - split_and!; [eapply swf_frame; eauto| |done].
    destruct (h_m h) as [k|]; [|done]. destruct Hf as (_ & _ & _ & H). apply H, Hm.
Qed.

Definition vit (σ : mem) (it : option slice) : option (list Z) :=
  match it with None => None | Some s => Some (sbytes σ (Some s)) end.

Lemma vit_arrs σ σ' it : arrs σ' = arrs σ -> vit σ' it = vit σ it.
Proof. intros H. destruct it; [|done]. cbn. unfold arr_of. rewrite H. done. Qed.

Lemma only_arrs σ σ' Q : arrs σ' = arrs σ -> (forall P, only_changes σ σ' P Q) ->
  only_changes σ σ' (fun _ _ => False) Q.
Proof. auto. Qed.

Lemma h_message_refines mt' σ h f x : hwf σ h -> hwf σ x ->
  refines_val (fun a b => let '(ok, err, m) := a in let '(hok, herr, σ', x') := b in
      ok = hok /\ err = herr /\ abs σ' x' = m /\ hwf σ' x' /\ arrs σ' = arrs σ /\
      only_changes σ σ' (fun _ _ => False) (fun k => h_m x = Some k) /\
      (forall k, h_m x' = Some k -> h_m x = Some k \/ maps σ !! k = None))
    (m_Message mt' (abs σ h) f (abs σ x)) (h_message mt' σ h f x).
Proof.
  intros Hwf Hx. unfold m_Message, h_message.
  eapply refines_val_map; [apply slice_at_ok; done|].
  intros [bs|] [[d|]|]; try done.
  - intros (Hb & Hd & _). cbn [default from_option id]. rewrite <- Hb.
    eapply refines_val_map; [apply h_decode_refines; done|].
    intros [err m] [[herr σ'] x']. cbn. intros (-> & Ha & Hw & H1 & H2 & H3 & H4).
    eexists. split; [done|]. cbn. split_and!; auto.
  - intros _. cbn. eexists. split; [done|]. cbn. split_and!; auto. apply only_refl.
Qed.

Lemma h_iter_refines σ h f : hwf σ h ->
  refines_val (fun a b => vit σ b = a /\ swf σ b /\ sub_window b (h_buf h)) (m_Iter (abs σ h) f) (h_iter σ h f).
Proof.
  intros Hwf. unfold m_Iter, h_iter, GetRepeatedNonPacked. cbn [mbuf moff abs].
  apply (with_offset_ok σ h f _ _ _ _ (fun a b => vit σ b = a /\ swf σ b /\ sub_window b (h_buf h))); [done|split_and!; (done || by intros ? ? [])|].
  intros off Hg. pose proof (get_buf_some _ _ _ _ Hwf Hg) as Hnn.
  pose proof (h_from_ok σ (h_buf h) off (proj1 Hwf)) as H.
  destruct (slice_from _ _) as [bs| | |]; try done; cbn [rbind].
  destruct H as (d & -> & Hb & Hd & Hsub & Hsome & _). eexists. split; [done|]. split_and!; try done.
  destruct d as [d|]; [cbn in *; congruence|].
  destruct (h_buf h); [|done]. destruct Hsome as [? [=]]. eauto.
Qed.

Lemma find_loop_pos fuel buf field : forall idx,
  find_loop fuel buf field idx =
    let* p := find_pos fuel buf field idx in
    match p with None => Ok None | Some i => let* r := slice_from buf i in Ok (Some r) end.
Proof.
  induction fuel as [|fuel IH]; intros idx; cbn [find_loop find_pos]; [done|].
  destruct (idx <? zlen buf); [|done].
  destruct (slice_from buf idx) as [b| | |]; try done. cbn [rbind].
  destruct (uvarint b) as [tag size].
  destruct (i64 (Z.shiftr tag 3) =? field).
  - destruct (slice_from buf (i64 (idx + size))) as [r| | |] eqn:E; try done. cbn [rbind]. rewrite E. done.
  - destruct (slice_from buf (i64 (idx + size))) as [r| | |]; try done. cbn [rbind].
    destruct (fieldDataSize _ _); try done. cbn [rbind]. apply IH.
Qed.

Lemma find_pos_past fuel buf field : forall idx, find_pos fuel buf field idx <> PastLen.
Proof.
  induction fuel as [|fuel IH]; intros idx; cbn [find_pos]; [done|].
  destruct (idx <? zlen buf); [|done].
  unfold slice_from. destruct (_ && _); [|done]. cbn [rbind].
  destruct (uvarint _) as [tag size]. destruct (i64 (Z.shiftr tag 3) =? field).
  - destruct (_ && _); done.
  - destruct (_ && _); [|done]. cbn [rbind]. unfold fieldDataSize.
    repeat (match goal with |- context [if ?c then _ else _] => destruct c end; cbn [rbind]; eauto).
    destruct (uvarint _). destruct (_ =? 0); cbn [rbind]; eauto.
Qed.

Lemma h_find_refines σ it f : swf σ it ->
  refines_val (fun a b => vit σ b.1 = a.1 /\ swf σ b.1 /\ vit σ b.2 = a.2 /\ swf σ b.2 /\
                          sub_window b.1 it /\ sub_window b.2 it)
    (FindNextField (find_fuel (vit σ it)) (vit σ it) f) (h_find σ it f).
Proof.
  intros Hs. destruct it as [s|]; [|cbn; eexists; split; [done|]; split_and!; try done; apply sub_refl].
  cbn [vit find_fuel FindNextField h_find].
  destruct (uvarint (sbytes σ (Some s))) as [msgLen lenSize].
  pose proof (h_range_ok σ (Some s) lenSize (i64 (lenSize + i64 msgLen)) Hs) as H.
  destruct (slice_range _ _ _) as [msg| | |]; try done; cbn [rbind]; [|rewrite H; done].
  destruct H as (d & -> & Hb & Hd & Hsub & Hsome & _). cbn [rbind].
  destruct d as [d|]; [|destruct Hsome as [? [=]]; eauto].
  rewrite find_loop_pos.
  destruct (find_pos _ _ _ _) as [[i|]| | |] eqn:E; cbn [rbind]; try done.
  - pose proof (h_from_ok σ (Some s) i Hs) as H.
    destruct (slice_from _ _) as [r| | |]; try done; cbn [rbind]; [|rewrite H; done].
    destruct H as (e & -> & He & Hes & Hesub & Hesome & _). cbn [rbind].
    destruct e as [e|]; [|destruct Hesome as [? [=]]; eauto].
    eexists. split; [done|]. cbn [fst snd vit]. rewrite He, Hb. done.
  - eexists. split; [done|]. cbn [fst snd vit]. rewrite Hb. split_and!; (done || by intros ? ? []).
Qed.

Lemma h_next_refines mt' σ it f x : swf σ it -> hwf σ x ->
  refines_val (fun a b => let '(it1, ok, err, m) := a in let '(it', hok, herr, σ', x') := b in
      it1 = vit σ it' /\ swf σ it' /\ ok = hok /\ err = herr /\ abs σ' x' = m /\ hwf σ' x' /\
      arrs σ' = arrs σ /\
      only_changes σ σ' (fun _ _ => False) (fun k => h_m x = Some k) /\
      (forall k, h_m x' = Some k -> h_m x = Some k \/ maps σ !! k = None))
    (it_Next mt' (vit σ it) f (abs σ x)) (h_next mt' σ it f x).
Proof.
  intros Hs Hx. unfold it_Next, h_next.
  eapply refines_val_map; [apply h_find_refines; done|].
  intros [it1 b1] [it' d]. cbn [fst snd]. intros (H1 & H2 & H3 & H4 & _).
  destruct b1 as [bs|], d as [d|]; try done.
  - injection H3 as <-.
    eapply refines_val_map; [apply (h_decode_refines mt' σ x (Some d)); done|].
    intros [err m] [[herr σ'] x']. cbn. intros (-> & Ha & Hw & G1 & G2 & G3 & G4).
    eexists. split; [done|]. cbn. split_and!; auto.
  - cbn. eexists. split; [done|]. split_and!; auto. apply only_refl.
Qed.

Lemma swf_arrs σ σ' s : arrs σ' = arrs σ -> swf σ s -> swf σ' s.
Proof. intros H. unfold swf. rewrite H. done. Qed.

Lemma h_iterate_refines mt' f n : forall σ it x, swf σ it -> hwf σ x ->
  refines_val (fun a b => a = b.1 /\ arrs b.2 = arrs σ /\
      only_changes σ b.2 (fun _ _ => False) (fun k => h_m x = Some k))
    (iterate n mt' (vit σ it) f (abs σ x)) (h_iterate n mt' σ it f x).
Proof.
  induction n as [|n IH]; intros σ it x Hs Hx; cbn [iterate h_iterate]; [done|].
  eapply refines_val_map; [apply h_next_refines; done|].
  intros [[[it1 ok] err] m] [[[[it' hok] herr] σ'] x'].
  intros (-> & Hs' & -> & -> & Ha & Hw & Harr & Hf & Hk).
  destruct hok; [|cbn; eexists; split; [done|]; split_and!; auto].
  rewrite <- Ha, <- (vit_arrs σ σ' it' Harr).
  eapply refines_val_map; [apply IH; [eapply swf_arrs; eauto|done]|].
  intros l [l' σ2]. cbn. intros (-> & Harr2 & Hf2). eexists. split; [done|]. cbn.
  split_and!; [done|congruence|]. eapply only_trans; [apply Hf|apply Hf2|auto|auto].
Qed.

(** ** Calls *)
Lemma h_put_ok spare σ x σ' y : h_put spare σ x = (σ', y) ->
  only_changes σ σ' (fun _ _ => False) (fun _ => False) /\ hwf σ' y /\ abs σ' y = x /\
  (forall k, h_m y = Some k -> maps σ !! k = None).
Proof.
  unfold h_put. destruct (alloc _ _ _) as [σ1 s] eqn:E1.
  destruct (alloc_frame _ _ _ _ _ E1) as (Hf & Hm & Hw & Hb & Hfr).
  destruct x as [b [a [m|]]]; cbn [om moff mbuf oa] in *; intros [= <- <-].
  - assert (Hn : maps σ1 !! pick (pick_map (chooser σ1)) (dom (maps σ1)) = None) by (apply not_elem_of_dom, pick_fresh).
    split_and!.
    + eapply (only_trans _ _ _ _ _ (fun _ _ => False) (fun _ => False)); [apply Hf| |intros ? ? []|intros ? []].
      split_and!; cbn; eauto.
      * intros k m' Hk _. rewrite lookup_insert_ne by congruence. done.
      * intros k [m' Hk]. rewrite lookup_insert_ne by congruence. eauto.
    + split_and!; cbn; [done|rewrite lookup_insert; eauto|done].
    + unfold abs, hoffs; cbn. rewrite lookup_insert. f_equal. exact Hb.
    + cbn. intros k [= <-]. congruence.
  - split_and!; try done. unfold abs, hoffs; cbn. f_equal. exact Hb.
Qed.

Lemma own_reads σ σ' h : only_changes σ σ' (fun _ _ => False) (fun _ => False) -> own_frame σ h σ' h.
Proof. intros Hf. split_and!; auto. eapply only_weaken; [apply Hf|done|done]. Qed.

Lemma hexec_refines grow spare mt σ h c : hwf σ h ->
  refines_val (fun a b => let '(ans, m) := a in let '(hans, σ', h') := b in
      ans = hans /\ abs σ' h' = m /\ hwf σ' h' /\ own_frame σ h σ' h')
    (exec mt (abs σ h) c) (hexec grow spare mt σ h c).
Proof.
  intros Hwf. destruct c as [T f|T f v|f x|mt' f x|n mt' f x| |buf|buf]; cbn [exec hexec].
  - eapply refines_val_map; [apply h_get_refines; done|]. intros v hv <-. cbn.
    eexists. split; [done|]. split_and!; auto. apply own_refl.
  - pose proof (h_set_refines grow T σ h f v Hwf) as H.
    destruct (m_set _ _ _ _) as [m| | |]; cbn in *; [|rewrite H; done|done|rewrite H; done].
    destruct H as (σ' & h' & -> & A & B & C). cbn. eexists. split; [done|]. done.
  - pose proof (h_append_bytes_refines grow σ h f (Scratch x) Hwf I) as H.
    cbn [src_bytes] in H.
    destruct (m_append _ _ _) as [m| | |]; cbn in *; [|rewrite H; done|done|rewrite H; done].
    destruct H as (σ' & h' & -> & A & B & C). cbn. eexists. split; [done|]. done.
  - destruct (h_put spare σ x) as [σ1 y] eqn:E1.
    destruct (h_put_ok _ _ _ _ _ E1) as (Hf1 & Hy & <- & Hfresh).
    destruct (abs_frame _ _ _ _ h Hf1 Hwf) as [Ha Hwf1]; [intros; tauto|intros; tauto|].
    rewrite <- Ha.
    eapply refines_val_map; [apply h_message_refines; done|].
    intros [[ok err] m] [[[hok herr] σ2] y2] (-> & -> & Hy2 & Hwy2 & Harr & Hf2 & _). cbn.
    assert (Hf : only_changes σ σ2 (fun _ _ => False) (fun _ => False)).
    { eapply only_trans; [apply Hf1|apply Hf2|tauto|]. intros k Hk. right. auto. }
    eexists. split; [done|].
    destruct (abs_frame _ _ _ _ h Hf Hwf) as [Ha2 Hwf2]; [intros; tauto|intros; tauto|].
    split_and!; [congruence|congruence|done|apply own_reads, Hf].
  - destruct (h_put spare σ x) as [σ1 y] eqn:E1.
    destruct (h_put_ok _ _ _ _ _ E1) as (Hf1 & Hy & <- & Hfresh).
    destruct (abs_frame _ _ _ _ h Hf1 Hwf) as [Ha Hwf1]; [intros; tauto|intros; tauto|].
    rewrite <- Ha. unfold m_iterate. rewrite rbind_assoc.
    eapply refines_val_map; [apply h_iter_refines; done|]. intros it hit (<- & Hit & _).
    eapply refines_val_map; [apply h_iterate_refines; done|].
    intros l [l' σ2] (-> & Harr & Hf2). cbn in *.
    assert (Hf : only_changes σ σ2 (fun _ _ => False) (fun _ => False)).
    { eapply only_trans; [apply Hf1|apply Hf2|tauto|]. intros k Hk. right. auto. }
    eexists. split; [done|].
    destruct (abs_frame _ _ _ _ h Hf Hwf) as [Ha2 Hwf2]; [intros; tauto|intros; tauto|].
    split_and!; [congruence|congruence|done|apply own_reads, Hf].
  - cbn. eexists. split; [done|]. split_and!; auto. apply own_refl.
  - destruct (alloc _ _ _) as [σ1 s] eqn:E1.
    destruct (alloc_frame _ _ _ _ _ E1) as (Hf1 & Hm1 & Hs & <- & Hfresh).
    destruct (abs_frame _ _ _ _ h Hf1 Hwf) as [Ha Hwf1]; [intros; tauto|intros; tauto|].
    rewrite <- Ha.
    eapply refines_val_map; [apply h_decode_refines; done|].
    intros [err m] [[herr σ2] h2]. cbn. intros (-> & Ha2 & Hw2 & G1 & G2 & G3 & G4).
    eexists. split; [done|]. split_and!; try done. split_and!.
    + eapply only_trans; [eapply only_weaken; [apply Hf1|done|]; done|apply (G3 (fun _ _ => False))|intros ? ? []|auto].
    + rewrite G2. intros a j [-> _]. auto.
    + intros k Hk. rewrite <- Hm1. auto.
  - destruct (alloc _ _ _) as [σ1 s] eqn:E1.
    destruct (alloc_frame _ _ _ _ _ E1) as (Hf1 & Hm1 & Hs & <- & Hfresh).
    destruct (abs_frame _ _ _ _ h Hf1 Hwf) as [Ha Hwf1]; [intros; tauto|intros; tauto|].
    rewrite <- Ha.
    eapply refines_val_map; [apply h_reset_refines; done|].
    intros m [σ2 h2]. cbn. intros (Ha2 & Hw2 & G1 & G2 & G3 & G4).
    eexists. split; [done|]. split_and!; try done. split_and!.
    + eapply only_trans; [eapply only_weaken; [apply Hf1|done|]; done|apply (G3 (fun _ _ => False))|intros ? ? []|auto].
    + rewrite G2. intros a j [-> _]. auto.
    + intros k Hk. rewrite <- Hm1. auto.
Qed.

(** ** Interleavings of separate structs *)
Lemma separate_sym h1 h2 : separate h1 h2 -> separate h2 h1.
Proof. intros [A B]. split; [intros a j H1 H2; eapply A; eauto|intros l H1 H2; eapply B; eauto]. Qed.

Lemma separate_step σ h σ' h' g : hwf σ g -> separate h g -> own_frame σ h σ' h' ->
  separate h' g /\ abs σ' g = abs σ g /\ hwf σ' g.
Proof.
  intros Hg [A B] (F1 & F2 & F3). split.
  - split.
    + intros a j H1 H2. destruct (F2 _ _ H1) as [|Hn]; [by eapply A|].
      destruct Hg as (Hs & _). destruct (h_buf g) as [s|]; [|done].
      destruct Hs as (l & Hl & _). destruct H2 as [-> _]. congruence.
    + intros l H1 H2. destruct (F3 _ H1) as [|Hn]; [by eapply B|].
      destruct Hg as (_ & Hm & _). rewrite H2 in Hm. destruct Hm as [m Hm]. congruence.
  - eapply abs_frame; [apply F1|done| |].
    + intros a j H1 H2. eapply A; eauto.
    + intros k H1 H2. eapply B; eauto.
Qed.

Lemma of_thread_cons_eq {A} i (a : A) l : of_thread i ((i, a) :: l) = a :: of_thread i l.
Proof. unfold of_thread. rewrite filter_cons_True by done. done. Qed.
Lemma of_thread_cons_ne {A} i j (a : A) l : i <> j -> of_thread j ((i, a) :: l) = of_thread j l.
Proof. intros H. unfold of_thread. rewrite filter_cons_False by done. done. Qed.

Lemma hrun_refines grow spare mts sch : forall σ hs,
  Forall (hwf σ) hs -> all_separate hs -> length mts = length hs ->
  Forall (fun p => (p.1 < length hs)%nat) sch ->
  (forall i mt h, mts !! i = Some mt -> hs !! i = Some h ->
     (trace mt (abs σ h) (of_thread i sch)).2 = Ok tt) ->
  exists ans σ' hs', hrun grow spare mts σ hs sch = (ans, Ok (σ', hs')) /\
    Forall (hwf σ') hs' /\ all_separate hs' /\ length hs' = length hs /\
    forall i mt h, mts !! i = Some mt -> hs !! i = Some h ->
      of_thread i ans = (trace mt (abs σ h) (of_thread i sch)).1.
Proof.
  induction sch as [|[i c] sch IH]; intros σ hs Hwf Hsep Hlen Hidx Htr; cbn [hrun].
  - eexists _, _, _. split; [done|]. split_and!; done.
  - inversion_clear Hidx as [|? ? Hi Hidx']. cbn in Hi.
    destruct (lookup_lt_is_Some_2 hs i Hi) as [h Hh].
    destruct (lookup_lt_is_Some_2 mts i) as [mt Hmt]; [lia|].
    rewrite Hh, Hmt.
    pose proof (Htr i mt h Hmt Hh) as Hti. rewrite of_thread_cons_eq in Hti. cbn [trace] in Hti.
    assert (Hw : hwf σ h) by (rewrite Forall_lookup in Hwf; eauto).
    pose proof (hexec_refines grow spare mt σ h c Hw) as Hx.
    destruct (exec mt (abs σ h) c) as [[a m]| | |] eqn:Eex; try done.
    destruct Hx as ([[a' σ1] h1] & -> & -> & Habs & Hw1 & Hown). 
    destruct (trace mt m (of_thread i sch)) as [tl tr] eqn:Et. cbn in Hti.
    assert (Hother : forall j g, j <> i -> hs !! j = Some g -> separate h1 g /\ abs σ1 g = abs σ g /\ hwf σ1 g).
    { intros j g Hj Hg. eapply separate_step; [|eapply (Hsep i j); eauto|exact Hown].
      rewrite Forall_lookup in Hwf; eauto. }
    assert (Hlk : forall j g, <[i := h1]> hs !! j = Some g -> (j = i /\ g = h1) \/ (j <> i /\ hs !! j = Some g)).
    { intros j g Hg. destruct (decide (j = i)) as [->|].
      - rewrite list_lookup_insert in Hg by done. injection Hg as <-. auto.
      - rewrite list_lookup_insert_ne in Hg by done. auto. }
    edestruct (IH σ1 (<[i := h1]> hs)) as (ans & σ' & hs' & Hr & A & B & C & D).
    + apply Forall_lookup. intros j g Hg. destruct (Hlk j g Hg) as [[-> ->]|[Hj Hg']]; [done|].
      eapply Hother; eauto.
    + intros j k g1 g2 Hjk H1 H2.
      destruct (Hlk _ _ H1) as [[-> ->]|[Hj H1']], (Hlk _ _ H2) as [[-> ->]|[Hk H2']]; try done.
      * eapply Hother; eauto.
      * apply separate_sym. eapply Hother; eauto.
      * eapply (Hsep j k); eauto.
    + rewrite insert_length. done.
    + rewrite insert_length. done.
    + intros j mt' g Hmt' Hg. destruct (Hlk _ _ Hg) as [[-> ->]|[Hj Hg']].
      * assert (mt' = mt) as -> by congruence. rewrite Habs, Et. done.
      * destruct (Hother _ _ Hj Hg') as (_ & -> & _).
        pose proof (Htr j mt' g Hmt' Hg') as H. rewrite of_thread_cons_ne in H by done. done.
    + rewrite Hr. rewrite insert_length in C. eexists _, _, _. split; [done|].
      split_and!; try done.
      intros j mt' g Hmt' Hg. destruct (decide (j = i)) as [->|Hj].
      * assert (mt' = mt) as -> by congruence. assert (g = h) as -> by congruence.
        rewrite !of_thread_cons_eq. cbn [trace]. rewrite Eex.
        rewrite (D i mt h1 Hmt) by (apply list_lookup_insert; done).
        rewrite Habs, Et. done.
      * rewrite !of_thread_cons_ne by done.
        rewrite (D j mt' g Hmt') by (rewrite list_lookup_insert_ne; done).
        destruct (Hother _ _ Hj Hg) as (_ & -> & _). done.
Qed.

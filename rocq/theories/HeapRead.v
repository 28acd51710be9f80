(** * Readers: no writes, and no interference *)
From Verif Require Import Heap HeapApi Core HeapFacts HeapSet HeapExec.

Lemma put_offs_arrs σ h o σ' h' : put_offs σ h o = (σ', h') -> arrs σ' = arrs σ.
Proof. unfold put_offs. destruct (h_m h), (om o); intros [= <- <-]; done. Qed.

Lemma h_decode_arrs mt σ h s err σ' h' : h_decode mt σ h s = Ok (err, σ', h') -> arrs σ' = arrs σ.
Proof.
  unfold h_decode. destruct (Decode _ _ _ _) as [[e o]| | |]; try done. cbn.
  destruct (put_offs _ _ _) as [σ1 h1] eqn:E. intros [= <- <- <-]. eapply put_offs_arrs; eauto.
Qed.

Lemma h_message_arrs mt' σ h f x ok err σ' x' :
  h_message mt' σ h f x = Ok (ok, err, σ', x') -> arrs σ' = arrs σ.
Proof.
  unfold h_message. destruct (slice_at σ h f) as [s| | |]; try done. cbn.
  destruct (default None s) as [s'|]; [|intros [= <- <- <- <-]; done].
  destruct (h_decode _ _ _ _) as [[[e σ1] x1]| | |] eqn:E; try done. cbn.
  intros [= <- <- <- <-]. eapply h_decode_arrs; eauto.
Qed.

Lemma h_next_arrs mt' σ it f x it' ok err σ' x' :
  h_next mt' σ it f x = Ok (it', ok, err, σ', x') -> arrs σ' = arrs σ.
Proof.
  unfold h_next. destruct (h_find σ it f) as [[it1 b]| | |]; try done. cbn.
  destruct b as [b|]; [|intros [= <- <- <- <- <-]; done].
  destruct (h_decode _ _ _ _) as [[[e σ1] x1]| | |] eqn:E; try done. cbn.
  intros [= <- <- <- <- <-]. eapply h_decode_arrs; eauto.
Qed.

Ltac res_case x E := destruct x as [?| | |] eqn:E; try done; cbn [rbind].

Lemma rexec_arrs σ t c a σ' t' : rexec σ t c = Ok (a, σ', t') -> arrs σ' = arrs σ.
Proof.
  destruct c as [x T f|x|x mt s|x f y mt'|x f k|k f y mt']; cbn [rexec];
    destruct (of_opt _) as [h| | |]; try done; cbn [rbind].
  - destruct (h_get _ _ _ _); try done. intros [= <- <- <-]. done.
  - intros [= <- <- <-]. done.
  - destruct (h_decode _ _ _ _) as [[[e σ1] x1]| | |] eqn:E; try done. cbn.
    intros [= <- <- <-]. eapply h_decode_arrs; eauto.
  - destruct (of_opt _) as [hy| | |]; try done; cbn [rbind].
    destruct (h_message _ _ _ _ _) as [[[[ok e] σ1] x1]| | |] eqn:E; try done. cbn.
    intros [= <- <- <-]. eapply h_message_arrs; eauto.
  - destruct (h_iter _ _ _); try done. intros [= <- <- <-]. done.
  - destruct (of_opt _) as [hy| | |]; try done; cbn [rbind].
    destruct (h_next _ _ _ _ _) as [[[[[it ok] e] σ1] x1]| | |] eqn:E; try done. cbn.
    intros [= <- <- <-]. eapply h_next_arrs; eauto.
Qed.

Lemma rrun_arrs sch : forall σ ts l σ', rrun σ ts sch = (l, Ok σ') -> arrs σ' = arrs σ.
Proof.
  induction sch as [|[i c] sch IH]; intros σ ts l σ'; cbn [rrun]; [intros [= <- <-]; done|].
  destruct (ts !! i) as [t|]; [|done].
  destruct (rexec σ t c) as [[[a σ1] t1]| | |] eqn:E; try done.
  destruct (rrun σ1 _ sch) as [l' r'] eqn:E'. intros [= <- ->].
  rewrite (IH _ _ _ _ E'). eapply rexec_arrs; eauto.
Qed.

(** ** The same struct in two memories *)
Definition hsim (σ1 : mem) (h1 : hmsg) (σ2 : mem) (h2 : hmsg) : Prop :=
  h_buf h1 = h_buf h2 /\ hoffs σ1 h1 = hoffs σ2 h2.

Lemma sbytes_arrs σ1 σ2 s : arrs σ1 = arrs σ2 -> sbytes σ1 s = sbytes σ2 s.
Proof. intros H. destruct s; [|done]. cbn. unfold arr_of. rewrite H. done. Qed.

Section sim.
  Context (σ1 σ2 : mem) (h1 h2 : hmsg) (Ha : arrs σ1 = arrs σ2) (Hh : hsim σ1 h1 σ2 h2).

  Lemma slice_at_sim f : slice_at σ1 h1 f = slice_at σ2 h2 f.
  Proof using Ha Hh.
    destruct Hh as [Hb Ho]. unfold slice_at, with_offset. rewrite Ho, Hb.
    destruct (offsets_get _ _) as [[off ok]| | |]; try done. cbn. destruct ok; [|done].
    destruct (h_from (h_buf h2) off); try done. cbn. rewrite (sbytes_arrs _ _ _ Ha). done.
  Qed.
  Lemma varint_at_sim f d k : varint_at σ1 h1 f d k = varint_at σ2 h2 f d k.
  Proof using Ha Hh.
    destruct Hh as [Hb Ho]. unfold varint_at, with_offset. rewrite Ho, Hb.
    destruct (offsets_get _ _) as [[off ok]| | |]; try done. cbn. destruct ok; [|done].
    destruct (h_from (h_buf h2) off); try done. cbn. rewrite (sbytes_arrs _ _ _ Ha). done.
  Qed.
  Lemma fixed_at_sim f n k : fixed_at σ1 h1 f n k = fixed_at σ2 h2 f n k.
  Proof using Ha Hh.
    destruct Hh as [Hb Ho]. unfold fixed_at, with_offset. rewrite Ho, Hb.
    destruct (offsets_get _ _) as [[off ok]| | |]; try done. cbn. destruct ok; [|done].
    destruct (h_range (h_buf h2) _ _); try done. cbn. rewrite (sbytes_arrs _ _ _ Ha). done.
  Qed.
  Lemma h_get_sim T f : h_get T σ1 h1 f = h_get T σ2 h2 f.
  Proof using Ha Hh.
    destruct T; cbn [h_get]; rewrite ?varint_at_sim, ?fixed_at_sim, ?slice_at_sim; done.
  Qed.
  Lemma h_iter_sim f : h_iter σ1 h1 f = h_iter σ2 h2 f.
  Proof using Ha Hh. destruct Hh as [Hb Ho]. unfold h_iter. rewrite Ho, Hb. done. Qed.
  Lemma h_find_sim it f : h_find σ1 it f = h_find σ2 it f.
  Proof using Ha. destruct it; [|done]. cbn [h_find]. rewrite (sbytes_arrs _ _ _ Ha). done. Qed.
End sim.

Definition has_map (σ : mem) (h : hmsg) : Prop :=
  match h_m h with None => True | Some l => is_Some (maps σ !! l) end.

(** A struct that received a new buffer or offsets. *)
Definition received (σ : mem) (h : hmsg) (σ' : mem) (h' : hmsg) : Prop :=
  has_map σ' h' /\ only_changes σ σ' (fun _ _ => False) (fun k => h_m h = Some k) /\
  (forall k, h_m h' = Some k -> h_m h = Some k \/ maps σ !! k = None).
Lemma received_refl σ h : has_map σ h -> received σ h σ h.
Proof. intros H. split_and!; auto. apply only_refl. Qed.

Definition same_res {A B} (R : A -> B -> Prop) (r1 : res A) (r2 : res B) : Prop :=
  match r1, r2 with
  | Ok a, Ok b => R a b
  | Panic, Panic | PastLen, PastLen | OutOfFuel, OutOfFuel => True
  | _, _ => False
  end.

Lemma h_decode_received mt σ h s : has_map σ h ->
  match Decode (fuel_of (sbytes σ s)) (sbytes σ s) (hoffs σ h) (reps mt) with
  | Ok (err, o) => exists σ' h', h_decode mt σ h s = Ok (err, σ', h') /\
       h_buf h' = s /\ hoffs σ' h' = o /\ received σ h σ' h'
  | Panic => h_decode mt σ h s = Panic
  | PastLen => h_decode mt σ h s = PastLen
  | OutOfFuel => h_decode mt σ h s = OutOfFuel
  end.
Proof.
  intros Hm. unfold h_decode.
  destruct (Decode _ _ _ _) as [[err o]| | |] eqn:E; try done. cbn [rbind].
  destruct (put_offs σ (put_buf h s) o) as [σ' h'] eqn:E2.
  assert (Ho : is_Some (om (hoffs σ (put_buf h s))) -> is_Some (om o)).
  { intros H. eapply Decode_map; [apply E|apply H]. }
  destruct (put_offs_ok σ (put_buf h s) _ _ _ Hm Ho E2) as (Ha2 & Hb2 & Hh2 & Hof2 & Hmm2 & Hfr2 & Hk2).
  exists σ', h'. split_and!; try done.
Qed.

Lemma h_decode_sim mt s σ1 σ2 h1 h2 :
  arrs σ1 = arrs σ2 -> hsim σ1 h1 σ2 h2 -> has_map σ1 h1 -> has_map σ2 h2 ->
  same_res (fun a b => a.1.1 = b.1.1 /\ hsim a.1.2 a.2 b.1.2 b.2 /\
                       received σ1 h1 a.1.2 a.2 /\ received σ2 h2 b.1.2 b.2)
    (h_decode mt σ1 h1 s) (h_decode mt σ2 h2 s).
Proof.
  intros Ha [Hb Ho] M1 M2.
  pose proof (h_decode_received mt σ1 h1 s M1) as D1.
  pose proof (h_decode_received mt σ2 h2 s M2) as D2.
  rewrite (sbytes_arrs _ _ s Ha), Ho in D1.
  destruct (Decode _ _ _ _) as [[err o]| | |].
  - destruct D1 as (σ1' & h1' & -> & B1 & O1 & R1). destruct D2 as (σ2' & h2' & -> & B2 & O2 & R2).
    cbn. split_and!; try done; split; congruence.
  - rewrite D1, D2. done.
  - rewrite D1, D2. done.
  - rewrite D1, D2. done.
Qed.

Lemma h_message_sim mt' f σ1 σ2 h1 h2 x1 x2 :
  arrs σ1 = arrs σ2 -> hsim σ1 h1 σ2 h2 -> hsim σ1 x1 σ2 x2 -> has_map σ1 x1 -> has_map σ2 x2 ->
  same_res (fun a b => a.1.1 = b.1.1 /\ hsim a.1.2 a.2 b.1.2 b.2 /\
                       received σ1 x1 a.1.2 a.2 /\ received σ2 x2 b.1.2 b.2)
    (h_message mt' σ1 h1 f x1) (h_message mt' σ2 h2 f x2).
Proof.
  intros Ha Hh Hx M1 M2. unfold h_message. rewrite (slice_at_sim _ _ _ _ Ha Hh).
  destruct (slice_at σ2 h2 f) as [s| | |]; try done. cbn [rbind].
  destruct (default None s) as [d|].
  - pose proof (h_decode_sim mt' (Some d) _ _ _ _ Ha Hx M1 M2) as H.
    destruct (h_decode mt' σ1 x1 (Some d)) as [[[e1 τ1] y1]| | |],
             (h_decode mt' σ2 x2 (Some d)) as [[[e2 τ2] y2]| | |]; try done.
    cbn in *. destruct H as (-> & H). done.
  - cbn. split_and!; try done; try apply Hx; apply received_refl; done.
Qed.

Lemma h_next_sim mt' it f σ1 σ2 x1 x2 :
  arrs σ1 = arrs σ2 -> hsim σ1 x1 σ2 x2 -> has_map σ1 x1 -> has_map σ2 x2 ->
  same_res (fun a b => a.1.1 = b.1.1 /\ hsim a.1.2 a.2 b.1.2 b.2 /\
                       received σ1 x1 a.1.2 a.2 /\ received σ2 x2 b.1.2 b.2)
    (h_next mt' σ1 it f x1) (h_next mt' σ2 it f x2).
Proof.
  intros Ha Hx M1 M2. unfold h_next. rewrite (h_find_sim _ _ Ha).
  destruct (h_find σ2 it f) as [[it' b]| | |]; try done. cbn [rbind].
  destruct b as [d|].
  - pose proof (h_decode_sim mt' (Some d) _ _ _ _ Ha Hx M1 M2) as H.
    destruct (h_decode mt' σ1 x1 (Some d)) as [[[e1 τ1] y1]| | |],
             (h_decode mt' σ2 x2 (Some d)) as [[[e2 τ2] y2]| | |]; try done.
    cbn in *. destruct H as (-> & H). done.
  - cbn. split_and!; try done; try apply Hx; apply received_refl; done.
Qed.

(** ** Readers *)
Definition rsim (σ1 : mem) (t1 : reader) (σ2 : mem) (t2 : reader) : Prop :=
  arrs σ1 = arrs σ2 /\ Forall2 (fun h1 h2 => hsim σ1 h1 σ2 h2) (r_structs t1) (r_structs t2) /\
  r_iters t1 = r_iters t2.

Lemma own_received σ ts i t y h σ' h' its :
  own_maps σ ts -> ts !! i = Some t -> r_structs t !! y = Some h -> received σ h σ' h' ->
  own_maps σ' (<[i := mkReader (<[y := h']> (r_structs t)) its]> ts) /\
  (forall j u x g, ts !! j = Some u -> r_structs u !! x = Some g -> (j <> i \/ x <> y) -> hoffs σ' g = hoffs σ g).
Proof.
  intros [O1 O2] Ht Hy (R1 & R2 & R3).
  assert (Hlen : (i < length ts)%nat) by (eapply lookup_lt_Some; eauto).
  assert (Hleny : (y < length (r_structs t))%nat) by (eapply lookup_lt_Some; eauto).
  assert (Hcase : forall j u x g, <[i := mkReader (<[y := h']> (r_structs t)) its]> ts !! j = Some u ->
      r_structs u !! x = Some g ->
      (j = i /\ x = y /\ g = h') \/ ((j <> i \/ x <> y) /\ exists u', ts !! j = Some u' /\ r_structs u' !! x = Some g)).
  { intros j u x g Hu Hg. destruct (decide (j = i)) as [->|Hj].
    - rewrite list_lookup_insert in Hu by done. injection Hu as <-. cbn in Hg.
      destruct (decide (x = y)) as [->|Hx].
      + rewrite list_lookup_insert in Hg by done. injection Hg as <-. auto.
      + rewrite list_lookup_insert_ne in Hg by done. right. eauto.
    - rewrite list_lookup_insert_ne in Hu by done. right. eauto. }
  assert (Hold : forall j u x g l, ts !! j = Some u -> r_structs u !! x = Some g -> (j <> i \/ x <> y) ->
     h_m g = Some l -> h_m h' <> Some l).
  { intros j u x g l Hu Hg Hne Hl Hl'. destruct (R3 _ Hl') as [Hl2|Hn].
    - destruct (O2 j i u t x y g h l) as [-> ->]; try done. tauto.
    - destruct (O1 j u x g l) as [m Hm]; try done. congruence. }
  split; [split|].
  - intros j u x g l Hu Hg Hl. destruct (Hcase _ _ _ _ Hu Hg) as [(-> & -> & ->)|[Hne (u' & Hu' & Hg')]].
    + unfold has_map in R1. rewrite Hl in R1. done.
    + apply R2. eapply O1; eauto.
  - intros j k u1 u2 x z g1 g2 l Hu1 Hu2 Hg1 Hg2 Hl1 Hl2.
    destruct (Hcase _ _ _ _ Hu1 Hg1) as [(-> & -> & ->)|[Hne1 (u1' & Hu1' & Hg1')]],
             (Hcase _ _ _ _ Hu2 Hg2) as [(-> & -> & ->)|[Hne2 (u2' & Hu2' & Hg2')]].
    + done.
    + exfalso. eapply Hold; [apply Hu2'|apply Hg2'|done|apply Hl2|done].
    + exfalso. eapply Hold; [apply Hu1'|apply Hg1'|done|apply Hl1|done].
    + eapply O2; [apply Hu1'|apply Hu2'|apply Hg1'|apply Hg2'|done|done].
  - intros j u x g Hu Hg Hne. unfold hoffs. f_equal. destruct (h_m g) as [l|] eqn:Hl; [|done].
    destruct (O1 j u x g l) as [m Hm]; try done. rewrite Hm. apply R2; [done|].
    intros Hl'. destruct (O2 j i u t x y g h l) as [-> ->]; try done. tauto.
Qed.

(** The memory of the other structs is not touched by a step of a reader. *)
Lemma rexec_frame σ ts i t c a σ' t' :
  own_maps σ ts -> ts !! i = Some t -> rexec σ t c = Ok (a, σ', t') ->
  own_maps σ' (<[i := t']> ts) /\
  (forall j u x g, j <> i -> ts !! j = Some u -> r_structs u !! x = Some g -> hoffs σ' g = hoffs σ g).
Proof.
  intros Hown Ht.
  assert (Hm : forall x h, r_structs t !! x = Some h -> has_map σ h).
  { intros x h Hx. unfold has_map. destruct (h_m h) as [l|] eqn:Hl; [|done]. eapply Hown; eauto. }
  assert (Hrefl : forall its, own_maps σ (<[i := mkReader (r_structs t) its]> ts)).
  { intros its. destruct Hown as [O1 O2].
    assert (Hlen : (i < length ts)%nat) by (eapply lookup_lt_Some; eauto).
    assert (Hcase : forall j u, <[i := mkReader (r_structs t) its]> ts !! j = Some u ->
       exists u', ts !! j = Some u' /\ r_structs u' = r_structs u).
    { intros j u Hu. destruct (decide (j = i)) as [->|].
      - rewrite list_lookup_insert in Hu by done. injection Hu as <-. eauto.
      - rewrite list_lookup_insert_ne in Hu by done. eauto. }
    split.
    - intros j u x g l Hu Hg Hl. destruct (Hcase _ _ Hu) as (u' & Hu' & Heq). rewrite <- Heq in Hg. eapply O1; eauto.
    - intros j k u1 u2 x z g1 g2 l Hu1 Hu2 Hg1 Hg2 Hl1 Hl2.
      destruct (Hcase _ _ Hu1) as (u1' & Hu1' & He1). destruct (Hcase _ _ Hu2) as (u2' & Hu2' & He2).
      rewrite <- He1 in Hg1. rewrite <- He2 in Hg2. eapply (O2 j k); eauto. }
  assert (Hsame : own_maps σ (<[i := t]> ts)) by (rewrite list_insert_id; done).
  destruct c as [x T f|x|x mt s|x f y mt'|x f k|k f y mt']; cbn [rexec].
  - destruct (r_structs t !! x) as [h|]; [|done]. cbn [of_opt rbind].
    destruct (h_get _ _ _ _); try done. intros [= <- <- <-]. done.
  - destruct (r_structs t !! x) as [h|]; [|done]. cbn [of_opt rbind]. intros [= <- <- <-]. done.
  - destruct (r_structs t !! x) as [h|] eqn:Hx; [|done]. cbn [of_opt rbind].
    pose proof (h_decode_received mt σ h s (Hm _ _ Hx)) as D.
    destruct (Decode _ _ _ _) as [[err o]| | |]; try (rewrite D; done).
    destruct D as (σ1 & h1 & -> & _ & _ & R). cbn. intros [= <- <- <-].
    destruct (own_received _ _ _ _ _ _ _ _ (r_iters t) Hown Ht Hx R) as [A B]. split; [done|].
    intros j u z g Hj Hu Hg. eapply B; eauto.
  - destruct (r_structs t !! x) as [h|] eqn:Hx; [|done]. cbn [of_opt rbind].
    destruct (r_structs t !! y) as [hy|] eqn:Hy; [|done]. cbn [of_opt rbind].
    pose proof (h_message_sim mt' f σ σ h h hy hy eq_refl (conj eq_refl eq_refl) (conj eq_refl eq_refl) (Hm _ _ Hy) (Hm _ _ Hy)) as D.
    destruct (h_message mt' σ h f hy) as [[[[ok err] σ1] y1]| | |]; try done.
    cbn in *. intros [= <- <- <-]. destruct D as (_ & _ & R & _).
    destruct (own_received _ _ _ _ _ _ _ _ (r_iters t) Hown Ht Hy R) as [A B]. split; [done|].
    intros j u z g Hj Hu Hg. eapply B; eauto.
  - destruct (r_structs t !! x) as [h|]; [|done]. cbn [of_opt rbind].
    destruct (h_iter _ _ _); try done. intros [= <- <- <-]. split; [apply Hrefl|done].
  - destruct (r_iters t !! k) as [it|]; [|done]. cbn [of_opt rbind].
    destruct (r_structs t !! y) as [hy|] eqn:Hy; [|done]. cbn [of_opt rbind].
    pose proof (h_next_sim mt' it f σ σ hy hy eq_refl (conj eq_refl eq_refl) (Hm _ _ Hy) (Hm _ _ Hy)) as D.
    destruct (h_next mt' σ it f hy) as [[[[[it' ok] err] σ1] y1]| | |]; try done.
    cbn in *. intros [= <- <- <-]. destruct D as (_ & _ & R & _).
    destruct (own_received _ _ _ _ _ _ _ _ (<[k:=it']> (r_iters t)) Hown Ht Hy R) as [A B]. split; [done|].
    intros j u z g Hj Hu Hg. eapply B; eauto.
Qed.

Lemma own_single σ ts i t : own_maps σ ts -> ts !! i = Some t -> own_maps σ [t].
Proof.
  intros [O1 O2] Ht.
  assert (H : forall j u, [t] !! j = Some u -> j = 0%nat /\ u = t).
  { intros [|j] u; cbn; [intros [= <-]; done|done]. }
  split.
  - intros j u x g l Hu. destruct (H _ _ Hu) as [-> ->]. eapply O1; eauto.
  - intros j k u1 u2 x z g1 g2 l Hu1 Hu2. destruct (H _ _ Hu1) as [-> ->], (H _ _ Hu2) as [-> ->].
    intros Hg1 Hg2 Hl1 Hl2. destruct (O2 i i t t x z g1 g2 l); done.
Qed.

Lemma Forall2_received σ1 σ2 (l1 l2 : list hmsg) y h1 h2 σ1' σ2' h1' h2' its1 its2 :
  own_maps σ1 [mkReader l1 its1] -> own_maps σ2 [mkReader l2 its2] ->
  Forall2 (fun h1 h2 => hsim σ1 h1 σ2 h2) l1 l2 ->
  l1 !! y = Some h1 -> l2 !! y = Some h2 ->
  received σ1 h1 σ1' h1' -> received σ2 h2 σ2' h2' -> hsim σ1' h1' σ2' h2' ->
  Forall2 (fun h1 h2 => hsim σ1' h1 σ2' h2) (<[y := h1']> l1) (<[y := h2']> l2).
Proof.
  intros O1 O2 HF H1 H2 R1 R2 Hs.
  destruct (own_received σ1 _ 0%nat _ y h1 σ1' h1' its1 O1 eq_refl H1 R1) as [_ B1].
  destruct (own_received σ2 _ 0%nat _ y h2 σ2' h2' its2 O2 eq_refl H2 R2) as [_ B2].
  apply Forall2_lookup. intros x.
  destruct (decide (x = y)) as [->|Hx].
  - rewrite !list_lookup_insert by (eapply lookup_lt_Some; eauto). constructor. done.
  - rewrite !list_lookup_insert_ne by done.
    pose proof (proj1 (Forall2_lookup _ _ _) HF x) as Hl.
    destruct (l1 !! x) as [g1|] eqn:G1, (l2 !! x) as [g2|] eqn:G2; inversion Hl as [? ? Hg|]; subst; constructor.
    destruct Hg as [Hg1 Hg2]. split; [done|].
    rewrite (B1 0%nat _ x g1 eq_refl G1), (B2 0%nat _ x g2 eq_refl G2); auto.
Qed.

Lemma Forall2_some {A B} (R : A -> B -> Prop) l1 l2 x :
  Forall2 R l1 l2 -> (l1 !! x = None /\ l2 !! x = None) \/ exists a b, l1 !! x = Some a /\ l2 !! x = Some b /\ R a b.
Proof.
  intros HF. pose proof (proj1 (Forall2_lookup _ _ _) HF x) as Hl.
  destruct (l1 !! x), (l2 !! x); inversion Hl; subst; eauto 10.
Qed.

Lemma rexec_sim σ1 t1 σ2 t2 c :
  own_maps σ1 [t1] -> own_maps σ2 [t2] -> rsim σ1 t1 σ2 t2 ->
  same_res (fun a b => a.1.1 = b.1.1 /\ rsim a.1.2 a.2 b.1.2 b.2) (rexec σ1 t1 c) (rexec σ2 t2 c).
Proof.
  intros O1 O2 (Ha & HF & Hit).
  destruct t1 as [l1 its1], t2 as [l2 its2]. cbn in HF, Hit. subst its2. rename its1 into its.
  assert (M1 : forall x h, l1 !! x = Some h -> has_map σ1 h).
  { intros x h Hx. unfold has_map. destruct (h_m h) as [l|] eqn:Hl; [|done]. eapply (proj1 O1 0%nat); eauto. }
  assert (M2 : forall x h, l2 !! x = Some h -> has_map σ2 h).
  { intros x h Hx. unfold has_map. destruct (h_m h) as [l|] eqn:Hl; [|done]. eapply (proj1 O2 0%nat); eauto. }
  destruct c as [x T f|x|x mt s|x f y mt'|x f k|k f y mt']; cbn [rexec r_structs r_iters].
  - destruct (Forall2_some _ _ _ x HF) as [[-> ->]|(h1 & h2 & -> & -> & Hh)]; [done|]. cbn [of_opt rbind].
    rewrite (h_get_sim _ _ _ _ Ha Hh). destruct (h_get _ _ _ _); try done.
  - destruct (Forall2_some _ _ _ x HF) as [[-> ->]|(h1 & h2 & -> & -> & Hh)]; [done|]. cbn.
    split; [|done]. f_equal. apply Hh.
  - destruct (Forall2_some _ _ _ x HF) as [[-> ->]|(h1 & h2 & E1 & E2 & Hh)]; [done|].
    rewrite E1, E2. cbn [of_opt rbind].
    pose proof (h_decode_sim mt s _ _ _ _ Ha Hh (M1 _ _ E1) (M2 _ _ E2)) as D.
    destruct (h_decode mt σ1 h1 s) as [[[e1 τ1] y1]| | |] eqn:D1,
             (h_decode mt σ2 h2 s) as [[[e2 τ2] y2]| | |] eqn:D2; try done.
    cbn in *. destruct D as (-> & Hs & R1 & R2). split; [done|]. split_and!; [|cbn|done].
    + rewrite (h_decode_arrs _ _ _ _ _ _ _ D1), (h_decode_arrs _ _ _ _ _ _ _ D2). done.
    + eapply Forall2_received; eauto.
  - destruct (Forall2_some _ _ _ x HF) as [[-> ->]|(h1 & h2 & E1 & E2 & Hh)]; [done|].
    rewrite E1, E2. cbn [of_opt rbind].
    destruct (Forall2_some _ _ _ y HF) as [[-> ->]|(g1 & g2 & F1 & F2 & Hg)]; [done|].
    rewrite F1, F2. cbn [of_opt rbind].
    pose proof (h_message_sim mt' f _ _ _ _ _ _ Ha Hh Hg (M1 _ _ F1) (M2 _ _ F2)) as D.
    destruct (h_message mt' σ1 h1 f g1) as [[[[ok1 e1] τ1] y1]| | |] eqn:D1,
             (h_message mt' σ2 h2 f g2) as [[[[ok2 e2] τ2] y2]| | |] eqn:D2; try done.
    cbn in *. destruct D as ([= -> ->] & Hs & R1 & R2). split; [done|]. split_and!; [|cbn|done].
    + rewrite (h_message_arrs _ _ _ _ _ _ _ _ _ D1), (h_message_arrs _ _ _ _ _ _ _ _ _ D2). done.
    + eapply Forall2_received; eauto.
  - destruct (Forall2_some _ _ _ x HF) as [[-> ->]|(h1 & h2 & -> & -> & Hh)]; [done|]. cbn [of_opt rbind].
    rewrite (h_iter_sim _ _ _ _ Ha Hh). destruct (h_iter _ _ _); try done.
  - destruct (its !! k) as [it|]; [|done]. cbn [of_opt rbind].
    destruct (Forall2_some _ _ _ y HF) as [[-> ->]|(g1 & g2 & F1 & F2 & Hg)]; [done|].
    rewrite F1, F2. cbn [of_opt rbind].
    pose proof (h_next_sim mt' it f _ _ _ _ Ha Hg (M1 _ _ F1) (M2 _ _ F2)) as D.
    destruct (h_next mt' σ1 it f g1) as [[[[[i1 ok1] e1] τ1] y1]| | |] eqn:D1,
             (h_next mt' σ2 it f g2) as [[[[[i2 ok2] e2] τ2] y2]| | |] eqn:D2; try done.
    cbn in *. destruct D as ([= -> -> ->] & Hs & R1 & R2). split; [done|]. split_and!; [|cbn|done].
    + rewrite (h_next_arrs _ _ _ _ _ _ _ _ _ _ D1), (h_next_arrs _ _ _ _ _ _ _ _ _ _ D2). done.
    + eapply Forall2_received; eauto.
Qed.

(** A reader in an interleaving sees what it would see alone. *)
Lemma rrun_sim sch : forall σ ts solo,
  own_maps σ ts -> length solo = length ts ->
  Forall (fun p => (p.1 < length ts)%nat) sch ->
  (forall i t s, ts !! i = Some t -> solo !! i = Some s ->
     own_maps s.1 [s.2] /\ rsim σ t s.1 s.2 /\
     exists l σ', rtrace s.1 s.2 (of_thread i sch) = (l, Ok σ')) ->
  exists ans σ', rrun σ ts sch = (ans, Ok σ') /\
    forall i s, solo !! i = Some s -> of_thread i ans = (rtrace s.1 s.2 (of_thread i sch)).1.
Proof.
  induction sch as [|[i c] sch IH]; intros σ ts solo Hown Hlen Hidx Hs; cbn [rrun].
  - eexists _, _. split; [done|]. intros j s Hj. done.
  - inversion_clear Hidx as [|? ? Hi Hidx']. cbn in Hi.
    destruct (lookup_lt_is_Some_2 ts i Hi) as [t Ht].
    destruct (lookup_lt_is_Some_2 solo i) as [[σs ts'] Hsolo]; [lia|].
    rewrite Ht. destruct (Hs _ _ _ Ht Hsolo) as (Ho & Hsim & l & σe & Htr). cbn [fst snd] in Ho, Hsim, Htr.
    rewrite of_thread_cons_eq in Htr. cbn [rtrace] in Htr.
    pose proof (rexec_sim σ t σs ts' c (own_single _ _ _ _ Hown Ht) Ho Hsim) as Hr.
    destruct (rexec σ t c) as [[[a σ1] t1]| | |] eqn:E1, (rexec σs ts' c) as [[[a' σs1] ts1]| | |] eqn:E2; try done.
    cbn in Hr. destruct Hr as [<- Hsim1].
    destruct (rtrace σs1 ts1 (of_thread i sch)) as [l' r'] eqn:Et. injection Htr as <- ->.
    destruct (rexec_frame _ _ _ _ _ _ _ _ Hown Ht E1) as [Hown1 Hfr].
    destruct (rexec_frame σs [ts'] 0%nat _ _ _ _ _ Ho eq_refl E2) as [Ho1 _]. cbn in Ho1.
    edestruct (IH σ1 (<[i := t1]> ts) (<[i := (σs1, ts1)]> solo)) as (ans & σ' & Hr & Hans).
    + done.
    + rewrite !insert_length. done.
    + rewrite insert_length. done.
    + intros j u s Hu Hsj. destruct (decide (j = i)) as [->|Hj].
      * rewrite list_lookup_insert in Hu by done. rewrite list_lookup_insert in Hsj by lia.
        injection Hu as <-. injection Hsj as <-. cbn. rewrite Et. eauto.
      * rewrite list_lookup_insert_ne in Hu by done. rewrite list_lookup_insert_ne in Hsj by done.
        destruct (Hs _ _ _ Hu Hsj) as (A & B & C). split; [done|]. split.
        -- destruct B as (B1 & B2 & B3). split_and!; [| |done].
           ++ rewrite (rexec_arrs _ _ _ _ _ _ E1). done.
           ++ apply Forall2_lookup. intros x.
              destruct (Forall2_some _ _ _ x B2) as [[-> ->]|(g1 & g2 & G1 & G2 & [Hb Hoff])]; [constructor|].
              rewrite G1, G2. constructor. split; [done|].
              rewrite (Hfr j u x g1); done.
        -- rewrite of_thread_cons_ne in C by done. done.
    + rewrite Hr. eexists _, _. split; [done|].
      intros j s Hj. destruct (decide (j = i)) as [->|Hne].
      * assert (s = (σs, ts')) as -> by congruence. rewrite !of_thread_cons_eq. cbn [fst snd rtrace].
        rewrite E2. rewrite (Hans i (σs1, ts1)) by (apply list_lookup_insert; lia). cbn [fst snd]. rewrite Et. done.
      * rewrite !of_thread_cons_ne by done. apply Hans. rewrite list_lookup_insert_ne by done. done.
Qed.

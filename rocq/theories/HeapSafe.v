(** * Readers stay inside the memory they were given (C58) *)
From Verif Require Import Heap HeapApi Core HeapFacts HeapSet HeapExec HeapRead HeapThms HeapAlloc.

(** The slice exists and its capacity window lies inside the region [R]. *)
Definition given (σ : mem) (R : nat -> Z -> Prop) (s : option slice) : Prop :=
  swf σ s /\ forall a j, in_window s a j -> R a j.
(** All a reader holds lies inside [R]; a call is given a buffer inside [R]. *)
Definition reader_in (σ : mem) (R : nat -> Z -> Prop) (t : reader) : Prop :=
  Forall (fun h => given σ R (h_buf h)) (r_structs t) /\ Forall (given σ R) (r_iters t).
Definition rcall_in (σ : mem) (R : nat -> Z -> Prop) (c : rcall) : Prop :=
  match c with RDecode _ _ s => given σ R s | _ => True end.
(** All the memory an answer refers to lies inside [R]. *)
Definition ranswer_in (σ : mem) (R : nat -> Z -> Prop) (a : ranswer) : Prop :=
  match a with
  | RVal (HStr s) | RVal (HBy s) | RSlice s => given σ R s
  | _ => True
  end.

(** Two memories with the same arrays and maps, the same allocator, and the same
    bytes inside [R]. *)
Definition agree_on (R : nat -> Z -> Prop) (σ1 σ2 : mem) : Prop :=
  (maps σ1 = maps σ2 /\ chooser σ1 = chooser σ2) /\
  (forall a, option_map (@length Z) (arrs σ1 !! a) = option_map (@length Z) (arrs σ2 !! a)) /\
  (forall a j, R a j -> cell σ1 a j = cell σ2 a j).

(** How a run ended. *)
Definition ending {A} (r : res A) : res unit :=
  match r with Ok _ => Ok tt | Panic => Panic | PastLen => PastLen | OutOfFuel => OutOfFuel end.

(** ** Containment *)
Section given.
Context (R : nat -> Z -> Prop).

Lemma given_None σ : given σ R None.
Proof. split; [done|]. intros a j []. Qed.
Lemma given_arrs σ σ' s : arrs σ' = arrs σ -> given σ R s -> given σ' R s.
Proof. intros E [H1 H2]. split; [eapply swf_arrs; eauto|done]. Qed.
Lemma h_from_given σ s i d : given σ R s -> h_from s i = Ok d -> given σ R d.
Proof. intros [H1 H2] E. destruct (h_from_sub _ _ _ _ H1 E) as [H3 H4]. split; [done|]. intros a j Hw. apply H2, H4, Hw. Qed.
Lemma h_range_given σ s lo hi d : given σ R s -> h_range s lo hi = Ok d -> given σ R d.
Proof. intros [H1 H2] E. destruct (h_range_sub _ _ _ _ _ H1 E) as [H3 [H4 _]]. split; [done|]. intros a j Hw. apply H2, H4, Hw. Qed.

Lemma slice_at_given σ h f d : given σ R (h_buf h) -> slice_at σ h f = Ok (Some d) -> given σ R d.
Proof.
  intros Hs. unfold slice_at, with_offset. destruct (offsets_get _ _) as [[off ok]| | |]; try done. cbn [rbind].
  destruct ok; [|done]. destruct (h_from _ _) as [b| | |]; try done. cbn [rbind].
  destruct (uvarint _) as [len ls]. destruct (h_range _ _ _) as [d'| | |] eqn:E; try done. cbn [rbind].
  intros [= <-]. eapply h_range_given; eauto.
Qed.
Lemma h_iter_given σ h f d : given σ R (h_buf h) -> h_iter σ h f = Ok d -> given σ R d.
Proof.
  intros Hs. unfold h_iter, with_offset. destruct (offsets_get _ _) as [[off ok]| | |]; try done. cbn [rbind].
  destruct ok; [|intros [= <-]; apply given_None]. apply h_from_given. done.
Qed.
Lemma h_find_given σ it f it' d : given σ R it -> h_find σ it f = Ok (it', d) -> given σ R it' /\ given σ R d.
Proof.
  intros Hs. unfold h_find. destruct it as [s|]; [|intros [= <- <-]; done].
  destruct (uvarint _) as [len ls]. destruct (h_range _ _ _) as [m| | |] eqn:E; try done. cbn [rbind].
  apply (h_range_given σ) in E; [|done].
  destruct (find_pos _ _ _ _) as [[i|]| | |]; try done; cbn [rbind].
  - destruct (h_from _ _) as [r| | |] eqn:E2; try done. cbn [rbind]. intros [= <- <-].
    apply (h_from_given σ) in E2; [|done]. done.
  - intros [= <- <-]. split; [apply given_None|done].
Qed.

Lemma h_get_given σ h T f v : given σ R (h_buf h) -> h_get T σ h f = Ok v -> ranswer_in σ R (RVal v).
Proof.
  intros Hs. assert (Hsa : forall C : option slice -> hval, (forall s, given σ R s -> ranswer_in σ R (RVal (C s))) ->
    (let* s := slice_at σ h f in Ok (C (default None s))) = Ok v -> ranswer_in σ R (RVal v)).
  { intros C HC. destruct (slice_at σ h f) as [s| | |] eqn:E; try done. cbn [rbind]. intros [= <-]. apply HC.
    destruct s as [s|]; [eapply slice_at_given; eauto|apply given_None]. }
  assert (Hv : forall d k, varint_at σ h f d k = Ok v -> ranswer_in σ R (RVal v)).
  { intros d k. unfold varint_at, with_offset. destruct (offsets_get _ _) as [[off ok]| | |]; try done. cbn [rbind].
    destruct ok; [|intros [= <-]; done]. destruct (h_from _ _); try done. cbn [rbind]. intros [= <-]. done. }
  assert (Hf : forall n k, fixed_at σ h f n k = Ok v -> ranswer_in σ R (RVal v)).
  { intros n k. unfold fixed_at, with_offset. destruct (offsets_get _ _) as [[off ok]| | |]; try done. cbn [rbind].
    destruct ok; [|intros [= <-]; done]. destruct (h_range _ _ _); try done. cbn [rbind].
    destruct (k _); try done. cbn [rbind]. intros [= <-]. done. }
  destruct T; cbn [h_get]; first [apply Hv|apply Hf|apply (Hsa HStr)|apply (Hsa HBy)]; intros; done.
Qed.

Lemma reader_in_arrs σ σ' t : arrs σ' = arrs σ -> reader_in σ R t -> reader_in σ' R t.
Proof. intros E [H1 H2]. split; (eapply Forall_impl; [eassumption|]); intros; eapply given_arrs; eauto. Qed.
Lemma rcall_in_arrs σ σ' c : arrs σ' = arrs σ -> rcall_in σ R c -> rcall_in σ' R c.
Proof. intros E. destruct c; try done. cbn. apply given_arrs. done. Qed.

Lemma reader_in_struct σ t x h : reader_in σ R t -> r_structs t !! x = Some h -> given σ R (h_buf h).
Proof. intros [H _] E. rewrite Forall_lookup in H. eapply H, E. Qed.
Lemma reader_in_iter σ t x h : reader_in σ R t -> r_iters t !! x = Some h -> given σ R h.
Proof. intros [_ H] E. rewrite Forall_lookup in H. eapply H, E. Qed.

Lemma reader_put σ t x h : reader_in σ R t -> given σ R (h_buf h) -> reader_in σ R (mkReader (<[x := h]> (r_structs t)) (r_iters t)).
Proof. intros [H1 H2] H. split; [|done]. apply Forall_insert; done. Qed.
Lemma reader_put2 σ t x h : reader_in σ R t -> given σ R h -> reader_in σ R (mkReader (r_structs t) (<[x := h]> (r_iters t))).
Proof. intros [H1 H2] H. split; [done|]. apply Forall_insert; done. Qed.

Lemma rexec_in σ t c a σ' t' : reader_in σ R t -> rcall_in σ R c -> rexec σ t c = Ok (a, σ', t') ->
  ranswer_in σ' R a /\ reader_in σ' R t'.
Proof.
  intros Ht Hc E. pose proof (rexec_arrs _ _ _ _ _ _ E) as Ha. revert E.
  destruct c as [x T f|x|x mt s|x f y mt'|x f k|k f y mt']; cbn [rexec];
    match goal with |- context [of_opt ?o] => destruct (of_opt o) as [h| | |] eqn:Eh; try done; cbn [rbind] end;
    apply of_opt_Some in Eh.
  - pose proof (reader_in_struct _ _ _ _ Ht Eh). destruct (h_get _ _ _ _) eqn:E; try done. intros [= <- <- <-]. split; [|done].
    eapply h_get_given; eauto.
  - intros [= <- <- <-]. split; [|done]. cbn. eapply reader_in_struct; eauto.
  - destruct (h_decode _ _ _ _) as [[[e σ1] x1]| | |] eqn:E; try done. cbn [rbind].
    intros [= <- <- <-]. split; [done|]. apply (reader_in_arrs σ); [done|]. apply (reader_put σ); [done|].
    rewrite (h_decode_buf _ _ _ _ _ _ _ E). done.
  - destruct (of_opt _) as [hy| | |] eqn:Ey; try done; cbn [rbind]. apply of_opt_Some in Ey.
    destruct (h_message _ _ _ _ _) as [[[[ok e] σ1] x1]| | |] eqn:E; try done. cbn [rbind].
    intros [= <- <- <-]. split; [done|]. apply (reader_in_arrs σ); [done|]. apply (reader_put σ); [done|].
    pose proof (reader_in_struct _ _ _ _ Ht Eh) as Hh.
    revert E. unfold h_message. destruct (slice_at _ _ _) as [s| | |] eqn:Es; try done. cbn [rbind].
    destruct s as [[s|]|]; cbn [from_option id]; try (intros [= <- <- <- <-]; eapply reader_in_struct; eauto; fail).
    destruct (h_decode _ _ _ _) as [[[e' σ2] x2]| | |] eqn:Ed; try done. cbn [rbind]. intros [= <- <- <- <-].
    rewrite (h_decode_buf _ _ _ _ _ _ _ Ed). eapply slice_at_given; eauto.
  - destruct (h_iter _ _ _) as [it| | |] eqn:E; try done. intros [= <- <- <-]. split; [done|].
    apply reader_put2; [done|]. eapply h_iter_given; [|exact E]. eapply reader_in_struct; eauto.
  - destruct (of_opt _) as [hy| | |] eqn:Ey; try done; cbn [rbind]. apply of_opt_Some in Ey.
    destruct (h_next _ _ _ _ _) as [[[[[it ok] e] σ1] x1]| | |] eqn:E; try done. cbn [rbind].
    intros [= <- <- <-]. split; [done|]. apply (reader_in_arrs σ); [done|].
    pose proof (reader_in_iter _ _ _ _ Ht Eh) as Hh.
    revert E. unfold h_next. destruct (h_find _ _ _) as [[it1 b]| | |] eqn:Ef; try done. cbn [rbind].
    destruct (h_find_given _ _ _ _ _ Hh Ef) as [Hi Hb].
    assert (Hgen : given σ R (h_buf x1) -> reader_in σ R (mkReader (<[y:=x1]> (r_structs t)) (<[k:=it1]> (r_iters t)))).
    { intros Hx. split; apply Forall_insert; try done; apply Ht. }
    destruct b as [b|].
    + destruct (h_decode _ _ _ _) as [[[e' σ2] x2]| | |] eqn:Ed; try done. cbn [rbind]. intros [= <- <- <- <- <-].
      apply Hgen. rewrite (h_decode_buf _ _ _ _ _ _ _ Ed). done.
    + intros [= <- <- <- <- <-]. apply Hgen. eapply reader_in_struct; eauto.
Qed.

Lemma rrun_in sch : forall σ ts l r, Forall (reader_in σ R) ts -> Forall (fun p => rcall_in σ R p.2) sch ->
  rrun σ ts sch = (l, r) -> Forall (fun p => ranswer_in σ R p.2) l.
Proof.
  induction sch as [|[i c] sch IH]; intros σ ts l r Ht Hc; cbn [rrun]; [intros [= <- _]; constructor|].
  inversion Hc as [|? ? Hc1 Hc2]; subst. cbn in Hc1.
  destruct (ts !! i) as [t|] eqn:Et; [|intros [= <- _]; constructor].
  assert (Ht1 : reader_in σ R t) by (rewrite Forall_lookup in Ht; eauto).
  destruct (rexec σ t c) as [[[a σ1] t1]| | |] eqn:E; try (intros [= <- _]; constructor).
  destruct (rrun σ1 _ sch) as [l' r'] eqn:E'. intros [= <- _].
  pose proof (rexec_arrs _ _ _ _ _ _ E) as Ha. destruct (rexec_in _ _ _ _ _ _ Ht1 Hc1 E) as [Hans Hr].
  assert (Hback : forall a, ranswer_in σ1 R a -> ranswer_in σ R a).
  { intros b. destruct b as [v|s| | |]; try done; [destruct v; try done|]; cbn; apply given_arrs; done. }
  constructor; [apply Hback; done|].
  eapply Forall_impl; [eapply (IH σ1 _ _ _ _ _ E')|intros; apply Hback; done].
  Unshelve.
  - apply Forall_insert; [|done]. eapply Forall_impl; [exact Ht|]. intros; eapply reader_in_arrs; eauto.
  - eapply Forall_impl; [exact Hc2|]. intros [j d]; cbn. apply rcall_in_arrs. done.
Qed.
End given.

(** ** Non-interference *)
Section agree.
Context (R : nat -> Z -> Prop).

Lemma agree_swf σ1 σ2 s : agree_on R σ1 σ2 -> swf σ1 s -> swf σ2 s.
Proof.
  intros (_ & Hd & _). destruct s as [s|]; [|done]. intros (l & Hl & H). specialize (Hd (sarr s)). rewrite Hl in Hd. cbn in Hd.
  destruct (arrs σ2 !! sarr s) as [l2|] eqn:E2; [|done]. cbn in Hd. injection Hd as Hd. exists l2. split; [done|].
  unfold zlen in *. rewrite <- Hd. done.
Qed.

Lemma agree_sbytes σ1 σ2 s : agree_on R σ1 σ2 -> given σ1 R s -> sbytes σ1 s = sbytes σ2 s.
Proof.
  intros Hag [Hw Hin]. pose proof (agree_swf _ _ _ Hag Hw) as Hw2. destruct Hag as (_ & _ & Hc).
  destruct s as [s|]; [|done]. destruct Hw as (l & Hl & H1 & H2 & H3). destruct Hw2 as (l2 & Hl2 & _ & _ & H4).
  cbn [sbytes]. unfold arr_of. rewrite Hl, Hl2. cbn [from_option id]. unfold zlen in *.
  apply list_eq. intros i. destruct (decide (i < Z.to_nat (slen s))%nat) as [Hi|Hi].
  - rewrite !lookup_take, !lookup_drop by done. specialize (Hc (sarr s) (soff s + Z.of_nat i)).
    unfold cell, arr_of in Hc. rewrite Hl, Hl2 in Hc. cbn [from_option id] in Hc.
    destruct (Z.leb_spec 0 (soff s + Z.of_nat i)); [|lia].
    replace (Z.to_nat (soff s) + i)%nat with (Z.to_nat (soff s + Z.of_nat i)) by lia. apply Hc.
    apply Hin. cbn. lia.
  - rewrite !lookup_take_ge by lia. done.
Qed.

Section one.
Context (σ1 σ2 : mem) (Hag : agree_on R σ1 σ2).

Lemma agree_hoffs h : hoffs σ1 h = hoffs σ2 h.
Proof. unfold hoffs. destruct Hag as [[-> _] _]. done. Qed.

Lemma slice_at_agree h f : given σ1 R (h_buf h) -> slice_at σ1 h f = slice_at σ2 h f.
Proof.
  intros Hh. unfold slice_at, with_offset. rewrite agree_hoffs.
  destruct (offsets_get _ _) as [[off ok]| | |]; try done. cbn [rbind]. destruct ok; [|done].
  destruct (h_from _ _) as [b| | |] eqn:E; try done. cbn [rbind].
  rewrite (agree_sbytes _ _ _ Hag (h_from_given R _ _ _ _ Hh E)). done.
Qed.
Lemma h_iter_agree h f : h_iter σ1 h f = h_iter σ2 h f.
Proof. unfold h_iter, with_offset. rewrite agree_hoffs. done. Qed.
Lemma h_get_agree T h f : given σ1 R (h_buf h) -> h_get T σ1 h f = h_get T σ2 h f.
Proof.
  intros Hh.
  assert (Hv : forall d k, varint_at σ1 h f d k = varint_at σ2 h f d k).
  { intros d k. unfold varint_at, with_offset. rewrite agree_hoffs. destruct (offsets_get _ _) as [[off ok]| | |]; try done. cbn [rbind].
    destruct ok; [|done]. destruct (h_from _ _) as [b| | |] eqn:E; try done. cbn [rbind].
    rewrite (agree_sbytes _ _ _ Hag (h_from_given R _ _ _ _ Hh E)). done. }
  assert (Hf : forall n k, fixed_at σ1 h f n k = fixed_at σ2 h f n k).
  { intros n k. unfold fixed_at, with_offset. rewrite agree_hoffs. destruct (offsets_get _ _) as [[off ok]| | |]; try done. cbn [rbind].
    destruct ok; [|done]. destruct (h_range _ _ _) as [b| | |] eqn:E; try done. cbn [rbind].
    rewrite (agree_sbytes _ _ _ Hag (h_range_given R _ _ _ _ _ Hh E)). done. }
  destruct T; cbn [h_get]; first [apply Hv|apply Hf|rewrite slice_at_agree; done].
Qed.
Lemma h_find_agree it f : given σ1 R it -> h_find σ1 it f = h_find σ2 it f.
Proof. intros Hi. unfold h_find. rewrite (agree_sbytes _ _ _ Hag Hi). done. Qed.

Lemma put_offs_agree h o σ1' h1 σ2' h2 : put_offs σ1 h o = (σ1', h1) -> put_offs σ2 h o = (σ2', h2) ->
  h1 = h2 /\ agree_on R σ1' σ2'.
Proof.
  destruct Hag as ([Hm Hp] & Hd & Hc). unfold put_offs. rewrite Hm, Hp.
  destruct (h_m h) as [l|], (om o) as [m|]; intros [= <- <-] [= <- <-]; split; try done; split_and!; try done; cbn; rewrite ?Hm, ?Hp; done.
Qed.

(** A call in both memories: same outcome, and the memories still agree. *)
Definition both {A} (P : A -> A -> Prop) (x y : res A) : Prop :=
  match x, y with
  | Ok a, Ok b => P a b
  | _, _ => ending x = ending y
  end.

Lemma h_decode_agree mt h s : given σ1 R s ->
  both (fun a b => a.1.1 = b.1.1 /\ a.2 = b.2 /\ agree_on R a.1.2 b.1.2) (h_decode mt σ1 h s) (h_decode mt σ2 h s).
Proof.
  intros Hs. unfold h_decode. rewrite (agree_sbytes _ _ _ Hag Hs), agree_hoffs.
  destruct (Decode _ _ _ _) as [[e o]| | |]; try done. cbn [rbind].
  destruct (put_offs σ1 _ o) as [s1 h1] eqn:E1, (put_offs σ2 _ o) as [s2 h2] eqn:E2.
  destruct (put_offs_agree _ _ _ _ _ _ E1 E2) as [-> ?]. cbn. done.
Qed.

Lemma rexec_agree t c : reader_in σ1 R t -> rcall_in σ1 R c ->
  both (fun a b => a.1.1 = b.1.1 /\ a.2 = b.2 /\ agree_on R a.1.2 b.1.2) (rexec σ1 t c) (rexec σ2 t c).
Proof.
  intros Ht Hc. destruct c as [x T f|x|x mt s|x f y mt'|x f k|k f y mt']; cbn [rexec];
    match goal with |- context [of_opt ?o] => destruct (of_opt o) as [h| | |] eqn:Eh; try done; cbn [rbind] end;
    apply of_opt_Some in Eh.
  - pose proof (reader_in_struct _ _ _ _ _ Ht Eh). rewrite h_get_agree by done. destruct (h_get _ _ _ _); done.
  - pose proof (h_decode_agree mt h s Hc) as Hd.
    destruct (h_decode mt σ1 h s) as [[[e1 s1] h1]| | |], (h_decode mt σ2 h s) as [[[e2 s2] h2]| | |]; try done.
    cbn in *. destruct Hd as (-> & -> & ?). done.
  - destruct (of_opt _) as [hy| | |] eqn:Ey; try done; cbn [rbind].
    pose proof (reader_in_struct _ _ _ _ _ Ht Eh) as Hh.
    unfold h_message. rewrite <- slice_at_agree by done. destruct (slice_at _ _ _) as [s| | |] eqn:Es; try done. cbn [rbind].
    destruct s as [[s|]|]; cbn [from_option id]; [|done|done].
    pose proof (h_decode_agree mt' hy (Some s) (slice_at_given R _ _ _ _ Hh Es)) as Hd.
    destruct (h_decode mt' σ1 hy _) as [[[e1 s1] h1]| | |], (h_decode mt' σ2 hy _) as [[[e2 s2] h2]| | |]; try done.
    cbn in *. destruct Hd as (-> & -> & ?). done.
  - rewrite h_iter_agree. destruct (h_iter _ _ _); done.
  - destruct (of_opt _) as [hy| | |] eqn:Ey; try done; cbn [rbind].
    pose proof (reader_in_iter _ _ _ _ _ Ht Eh) as Hh.
    unfold h_next. rewrite <- h_find_agree by done. destruct (h_find _ _ _) as [[it b]| | |] eqn:Es; try done. cbn [rbind].
    destruct b as [b|]; [|done].
    pose proof (h_decode_agree mt' hy (Some b) (proj2 (h_find_given R _ _ _ _ _ Hh Es))) as Hd.
    destruct (h_decode mt' σ1 hy _) as [[[e1 s1] h1]| | |], (h_decode mt' σ2 hy _) as [[[e2 s2] h2]| | |]; try done.
    cbn in *. destruct Hd as (-> & -> & ?). done.
Qed.
End one.

Lemma rrun_agree sch : forall σ1 σ2 ts, agree_on R σ1 σ2 -> Forall (reader_in σ1 R) ts ->
  Forall (fun p => rcall_in σ1 R p.2) sch ->
  (rrun σ1 ts sch).1 = (rrun σ2 ts sch).1 /\ ending (rrun σ1 ts sch).2 = ending (rrun σ2 ts sch).2.
Proof.
  induction sch as [|[i c] sch IH]; intros σ1 σ2 ts Hag Ht Hc; cbn [rrun]; [done|].
  inversion Hc as [|? ? Hc1 Hc2]; subst. cbn in Hc1.
  destruct (ts !! i) as [t|] eqn:Et; [|done].
  assert (Ht1 : reader_in σ1 R t) by (rewrite Forall_lookup in Ht; eauto).
  pose proof (rexec_agree σ1 σ2 Hag t c Ht1 Hc1) as Hb.
  destruct (rexec σ1 t c) as [[[a s1] t1]| | |] eqn:E1, (rexec σ2 t c) as [[[a2 s2] t2]| | |] eqn:E2; try done.
  cbn in Hb. destruct Hb as (<- & <- & Hag').
  pose proof (rexec_arrs _ _ _ _ _ _ E1) as Ha. destruct (rexec_in R _ _ _ _ _ _ Ht1 Hc1 E1) as [_ Hr].
  destruct (IH s1 s2 (<[i:=t1]> ts) Hag') as [H1 H2].
  - apply Forall_insert; [|done]. eapply Forall_impl; [exact Ht|]. intros; eapply reader_in_arrs; eauto.
  - eapply Forall_impl; [exact Hc2|]. intros [j d]; cbn. apply rcall_in_arrs. done.
  - destruct (rrun s1 _ sch) as [l1 r1], (rrun s2 _ sch) as [l2 r2]. cbn in *. subst l2. done.
Qed.
End agree.

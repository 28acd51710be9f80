(** * Facts about the state after a panic *)
From Verif Require Import PanicState VarintFacts OffsetsFacts HeapFacts HeapSet.
From Coq Require Import ZifyBool.

(** ** Agreement with the functions of Runtime.v and GenApi.v *)

Definition agrees (p : res unit * pst) (r : res pst) : Prop :=
  p.1 = (let* _ := r in Ok tt) /\ forall s, r = Ok s -> p.2 = s.

Lemma p_offsets_set_eq f x s :
  p_offsets_set f x s =
    match offsets_set s.2 f x with
    | Ok o => (Ok tt, (s.1, o)) | Panic => (Panic, s) | PastLen => (PastLen, s) | OutOfFuel => (OutOfFuel, s)
    end.
Proof. unfold p_offsets_set, pbind, pread, woff. destruct (offsets_set _ _ _); reflexivity. Qed.

Lemma p_append_new_agrees f tb vl v b o :
  agrees (p_append_new f tb vl v (b, o))
    (let* o := offsets_set o f (u64 (zlen (b ++ tb))) in Ok ((b ++ tb) ++ vl ++ v, o)).
Proof.
  unfold p_append_new, pbind at 1. cbn [fst snd]. unfold pbind at 1. rewrite p_offsets_set_eq. cbn [fst snd].
  destruct (offsets_set _ _ _) as [o'| | |]; cbn; split; try done.
  intros s [= <-]. rewrite <- !app_assoc. reflexivity.
Qed.

Lemma p_adjust_agrees ks e r : forall b o,
  agrees (p_adjust_map_keys ks e r (b, o)) (let* o := adjust_map_keys ks e r o in Ok (b, o)).
Proof.
  induction ks as [|k ks IH]; intros b o; cbn [p_adjust_map_keys adjust_map_keys].
  - split; [done|]. intros s [= <-]. done.
  - unfold pbind at 1 2, pread, woff. cbn [fst snd].
    destruct (adjust_map_key e r k o) as [o'| | |]; cbn [rbind fst snd]; try (split; done).
    apply IH.
Qed.

Lemma p_copy_eq i src s :
  p_copy i src s =
    match copy_at s.1 i src with
    | Ok (b, n) => (Ok n, (b, s.2)) | Panic => (Panic, s) | PastLen => (PastLen, s) | OutOfFuel => (OutOfFuel, s)
    end.
Proof. unfold p_copy, pbind, pread, wbuf, pret. destruct (copy_at _ _ _) as [[]| | |]; reflexivity. Qed.

Lemma p_setSingle_agrees f typ vl v b o :
  agrees (p_setSingle f typ vl v (b, o)) (setSingle b o f typ vl v).
Proof.
  unfold p_setSingle, setSingle, setSingle_ord. unfold pbind at 1, pread.
  destruct (put_uvarint MaxVarintLen64 (make_tag f typ)) as [tb| | |]; cbn [rbind]; try (split; done).
  unfold pbind at 1. cbn [fst snd].
  destruct (offsets_get o f) as [[off ok]| | |]; cbn [rbind fst snd]; try (split; done).
  destruct ok; [|apply p_append_new_agrees].
  unfold pbind at 1. cbn [fst snd].
  destruct (old_len b off typ) as [ol| | |]; cbn [rbind]; try (split; done).
  destruct (ol =? zlen vl + zlen v).
  - unfold pbind at 1. rewrite p_copy_eq. cbn [fst snd].
    destruct (copy_at b off vl) as [[b1 n1]| | |]; cbn [rbind]; try (split; done).
    unfold pbind at 1. rewrite p_copy_eq. cbn [fst snd].
    destruct (copy_at b1 _ v) as [[b2 n2]| | |]; cbn [rbind]; split; try done. intros s [= <-]. done.
  - unfold pbind at 1. cbn [fst snd].
    destruct (slice_from b _) as [src| | |]; cbn [rbind]; try (split; done).
    unfold pbind at 1. rewrite p_copy_eq. cbn [fst snd].
    destruct (copy_at b _ src) as [[b1 n1]| | |]; cbn [rbind]; try (split; done).
    unfold pbind at 1. cbn [fst snd].
    destruct (slice_to b1 _) as [b2| | |]; cbn [rbind]; try (split; done).
    unfold pbind at 1, wbuf. cbn [fst snd]. unfold pbind at 1. cbn [fst snd]. unfold pbind at 1. cbn [fst snd].
    set (e := u64 (off + u64 ol)). set (o1 := mkOffsets _ _).
    match goal with |- context [p_adjust_map_keys ?ks ?e ?r ?s] => pose proof (p_adjust_agrees ks e r b2 o1) as [H1 H2] end.
    destruct (p_adjust_map_keys _ _ _ _) as [q s]. cbn [fst snd] in H1, H2.
    change (map_keys o1) with (map_keys o1).
    destruct (adjust_map_keys (map_keys o1) _ _ o1) as [o2| | |] eqn:E; cbn [rbind] in *; subst q; try (split; done).
    rewrite (H2 _ eq_refl). apply p_append_new_agrees.
Qed.

Lemma p_appendSingle_agrees f typ vl v b o :
  agrees (p_appendSingle f typ vl v (b, o)) (appendSingle b o f typ vl v).
Proof.
  unfold p_appendSingle, appendSingle. unfold pbind at 1, pread.
  destruct (put_uvarint MaxVarintLen64 (make_tag f typ)) as [tb| | |]; cbn [rbind]; try (split; done).
  unfold pbind at 1. cbn [fst snd]. unfold pbind at 1. cbn [fst snd].
  destruct (offsets_get o f) as [[off ok]| | |]; cbn [rbind fst snd]; try (split; done).
  unfold pbind at 1. destruct ok.
  - unfold pret at 1. unfold pbind at 1. cbn [fst snd rbind]. split; [done|]. intros s [= <-].
    cbn. rewrite <- !app_assoc. done.
  - rewrite p_offsets_set_eq. cbn [fst snd].
    destruct (offsets_set _ _ _) as [o'| | |]; cbn; split; try done.
    intros s [= <-]. rewrite <- !app_assoc. done.
Qed.

Lemma agrees_bind_read {A} (r : res A) (k : A -> M unit) (kr : A -> res pst) s :
  (forall a, agrees (k a s) (kr a)) ->
  agrees (pbind (pread (fun _ => r)) k s) (let* a := r in kr a).
Proof. intros H. unfold pbind, pread. destruct r; cbn; [apply H|split; done..]. Qed.

Lemma p_set_agrees T f v m :
  agrees (p_set T f v (mbuf m, moff m)) (let* m' := m_set T m f v in Ok (mbuf m', moff m')).
Proof.
  assert (Hid : forall r : res (list Z * offsets),
    (let* m' := (let* (b, o) := r in Ok (mkMsg b o)) in Ok (mbuf m', moff m')) = r).
  { intros [[b o]| | |]; done. }
  unfold m_set, m_set_ord, p_set. cbv zeta. rewrite Hid.
  destruct T, v; try (split; done);
    unfold SetBool_ord, SetInt32_ord, SetInt64_ord, SetUint32_ord, SetUint64_ord, SetZigZagInt32_ord,
      SetZigZagInt64_ord, SetFixedUint32_ord, SetFixedUint64_ord, SetFixedInt32_ord, SetFixedInt64_ord,
      SetFloat32_ord, SetFloat64_ord, SetString_ord, SetBytes_ord;
    try apply p_setSingle_agrees; apply agrees_bind_read; intros; apply p_setSingle_agrees.
Qed.

Lemma p_append_agrees f x m :
  agrees (p_append f x (mbuf m, moff m)) (let* m' := m_append m f x in Ok (mbuf m', moff m')).
Proof.
  assert (Hid : forall r : res (list Z * offsets),
    (let* m' := (let* (b, o) := r in Ok (mkMsg b o)) in Ok (mbuf m', moff m')) = r).
  { intros [[b o]| | |]; done. }
  unfold m_append, p_append, AppendBytes. rewrite Hid. apply agrees_bind_read. intros. apply p_appendSingle_agrees.
Qed.

Definition dagrees (b : list Z) (p : res (option error) * pst) (r : res (option error * offsets)) : Prop :=
  p.1 = (let* (e, _) := r in Ok e) /\ p.2.1 = b /\ forall e o', r = Ok (e, o') -> p.2.2 = o'.

Lemma dagrees_ok b e o : dagrees b (Ok e, (b, o)) (Ok (e, o)).
Proof. split_and!; try done. cbn. intros ? ? [= _ <-]. done. Qed.

Lemma p_decode_loop_agrees fuel buf reps : forall idx b o,
  dagrees b (p_decode_loop fuel buf reps idx (b, o)) (decode_loop fuel buf reps idx o).
Proof.
  induction fuel as [|fuel IH]; intros idx b o; cbn [p_decode_loop decode_loop]; [done|].
  destruct (idx =? zlen buf); [apply dagrees_ok|].
  destruct (zlen buf <? idx); [apply dagrees_ok|].
  unfold pbind at 1, pread at 1. destruct (slice_from buf idx) as [bs| | |]; cbn [rbind]; try done.
  destruct (uvarint bs) as [tag size].
  destruct (size =? 0); [apply dagrees_ok|].
  destruct (zlen buf <=? i64 (idx + size)); [apply dagrees_ok|].
  set (fid := i64 (Z.shiftr tag 3)). set (x := u64 (i64 (idx + size))).
  match goal with |- context [pbind ?p ?k (b, o)] => set (P := p); set (K := k) end.
  match goal with |- context [rbind ?r _] => set (R := r) end.
  assert (HP : P (b, o) = match R with Ok o' => (Ok tt, (b, o')) | Panic => (Panic, (b, o))
                          | PastLen => (PastLen, (b, o)) | OutOfFuel => (OutOfFuel, (b, o)) end).
  { subst P R. destruct (is_repeated reps fid).
    - unfold pbind at 1, pread. cbn [fst snd].
      destruct (offsets_get o fid) as [[? ok]| | |]; cbn [rbind fst snd]; try done.
      destruct ok; [done|]. apply p_offsets_set_eq.
    - apply p_offsets_set_eq. }
  unfold pbind at 1. rewrite HP. clear HP. clearbody R. destruct R as [o'| | |]; cbn [rbind]; try done.
  subst K. cbn beta. unfold pbind, pread. cbn [fst snd].
  destruct (slice_from buf _) as [bs'| | |]; cbn [rbind]; try done.
  destruct (fieldDataSize _ bs') as [n| | |]; cbn [rbind]; try done.
  destruct (n =? 0); [apply dagrees_ok|].
  apply IH.
Qed.

(** The outcome of a call and, if it returns, the new state are those of
    [exec]. *)
Lemma call_st_exec mt m c :
  (call_st mt m c).1 = (let* (a, _) := exec mt m c in Ok a) /\
  forall a m', exec mt m c = Ok (a, m') -> (call_st mt m c).2 = m'.
Proof.
  assert (Heta : forall m : msg, mkMsg (mbuf m) (moff m) = m) by (intros []; done).
  unfold call_st. destruct c as [T f|T f v|f x|mt' f x|n mt' f x| |buf|buf]; cbn [exec].
  1,4,5,6: unfold pread; cbn [fst snd]; rewrite ?Heta; split; [done|];
    intros a m'; match goal with |- (rbind ?r _) = _ -> _ => destruct r as [q| | |]; cbn [rbind]; try done; repeat destruct q as [q ?];
      intros [= <- <-]; done | |- _ => intros [= <- <-]; done end.
  - pose proof (p_set_agrees T f v m) as [H1 H2]. unfold pbind.
    destruct (p_set T f v (mbuf m, moff m)) as [r s]. cbn [fst snd] in *.
    destruct (m_set T m f v) as [m1| | |]; cbn [rbind] in *; subst r; cbn; split; try done.
    intros a m' [= <- <-]. rewrite (H2 _ eq_refl). apply Heta.
  - pose proof (p_append_agrees f x m) as [H1 H2]. unfold pbind.
    destruct (p_append f x (mbuf m, moff m)) as [r s]. cbn [fst snd] in *.
    destruct (m_append m f x) as [m1| | |]; cbn [rbind] in *; subst r; cbn; split; try done.
    intros a m' [= <- <-]. rewrite (H2 _ eq_refl). apply Heta.
  - unfold p_Decode, m_Decode, Decode. unfold pbind at 1 2 3. unfold wbuf. cbn [fst snd].
    unfold pbind at 1. cbn [fst snd].
    pose proof (p_decode_loop_agrees (fuel_of buf) buf (reps mt) 0 buf (offsets_clear (moff m))) as (H1 & H2 & H3).
    unfold pbind. cbn [fst snd].
    destruct (p_decode_loop _ _ _ _ _) as [r [b o]]. cbn [fst snd] in *. subst b.
    destruct (decode_loop _ _ _ _ _) as [[e o']| | |]; cbn [rbind] in *; subst r; cbn; split; try done.
    intros a m' [= <- <-]. rewrite (H3 _ _ eq_refl). done.
  - unfold p_Reset, m_Reset. destruct (0 <? zlen buf); cbn; split; try done. intros a m' [= <- <-]. done.
Qed.

(** ** The invariant of the offsets *)

Lemma offsets_set_owf o f x o' :
  owf o -> 0 <= x < 2 ^ 64 -> offsets_set o f x = Ok o' -> owf o' /\ zlen (oa o') = zlen (oa o).
Proof.
  intros Ho Hx E. destruct (decide (0 <= f < zlen (oa o))) as [Hf|Hf].
  - destruct (offsets_set_ok o f x Ho Hf Hx) as (o1 & E1 & H1 & H2 & _).
    rewrite E1 in E. injection E as <-. done.
  - rewrite offsets_set_out in E by exact Hf. discriminate.
Qed.

Lemma u64_range x : 0 <= u64 x < 2 ^ 64.
Proof. unfold u64. apply Z.mod_pos_bound. reflexivity. Qed.

Definition keeps (o : offsets) (s : pst) : Prop := owf s.2 /\ zlen (oa s.2) = zlen (oa o).

Lemma p_offsets_set_owf f x b o : owf o -> 0 <= x < 2 ^ 64 ->
  keeps o (p_offsets_set f x (b, o)).2.
Proof.
  intros Ho Hx. rewrite p_offsets_set_eq. cbn [fst snd].
  destruct (offsets_set o f x) as [o'| | |] eqn:E; try done. eapply offsets_set_owf; eauto.
Qed.

Lemma p_append_new_owf f tb vl v b o : owf o ->
  keeps o (p_append_new f tb vl v (b, o)).2.
Proof.
  intros Ho. unfold p_append_new, pbind at 1. cbn [fst snd]. unfold pbind at 1.
  pose proof (p_offsets_set_owf f (u64 (zlen (b ++ tb))) (b ++ tb) o Ho (u64_range _)) as H.
  cbn [fst snd]. destruct (p_offsets_set _ _ _) as [[u| | |] s]; cbn in *; done.
Qed.

Lemma adjust_key_owf e r k o o' :
  owf o -> adjust_map_key e r k o = Ok o' -> owf o' /\ zlen (oa o') = zlen (oa o).
Proof.
  intros Ho. unfold adjust_map_key. destruct (om o) as [mm|]; [|intros [= <-]; done].
  destruct (mm !! k); [|intros [= <-]; done]. destruct (e <? _); [|intros [= <-]; done].
  apply offsets_set_owf; [done|apply u64_range].
Qed.

Lemma p_adjust_owf ks e r : forall b o, owf o ->
  keeps o (p_adjust_map_keys ks e r (b, o)).2.
Proof.
  induction ks as [|k ks IH]; intros b o Ho; cbn [p_adjust_map_keys]; [done|].
  unfold pbind at 1 2, pread, woff. cbn [fst snd].
  destruct (adjust_map_key e r k o) as [o'| | |] eqn:E; cbn [fst snd]; try done.
  destruct (adjust_key_owf _ _ _ _ _ Ho E) as [H1 H2]. unfold keeps. rewrite <- H2. apply IH, H1.
Qed.

(** The subtraction of the array loop stays within the array's range. *)
Lemma adjust_array_owf o e r :
  owf o -> 0 <= r <= e ->
  owf (mkOffsets (adjust_array (oa o) e r) (om o)) /\ zlen (adjust_array (oa o) e r) = zlen (oa o).
Proof.
  intros (H1 & H2 & H3) Hr.
  assert (Hc : forall x, 0 <= x <= 65535 ->
     let y := if negb (x =? 65535) && (e <? x) then u16 (x - u16 r) else x in
     0 <= y <= 65535 /\ (y = 65535 <-> x = 65535)).
  { intros x Hx. cbv zeta. destruct (Z.eqb_spec x 65535); cbn [negb andb]; [lia|].
    destruct (Z.ltb_spec e x); [|lia]. unfold u16. rewrite (Z.mod_small r) by lia.
    rewrite Z.mod_small by lia. lia. }
  split.
  - split_and!; cbn [oa om].
    + intros f x Hx. unfold adjust_array in Hx. change (map ?g ?l) with (g <$> l) in Hx.
      rewrite list_lookup_fmap in Hx. destruct (oa o !! f) as [y|] eqn:E; [|discriminate].
      injection Hx as <-. apply Hc. eapply H1; eauto.
    + intros f. rewrite H2. apply and_iff_compat_l.
      unfold adjust_array. change (map ?g ?l) with (g <$> l). rewrite list_lookup_fmap.
      destruct (oa o !! Z.to_nat f) as [y|] eqn:E; [|done].
      destruct (Hc y (H1 _ _ E)) as [_ Hy]. cbn [fmap option_fmap option_map].
      split; intros [= Q]; f_equal; apply Hy; done.
    + exact H3.
  - unfold adjust_array, zlen. rewrite map_length. done.
Qed.

Lemma copy_at_len b i src b' n : copy_at b i src = Ok (b', n) -> zlen b' = zlen b.
Proof.
  unfold copy_at. destruct ((0 <=? i) && (i <=? zlen b)) eqn:E; [|discriminate]. intros [= <- <-].
  unfold zlen in *. rewrite !app_length, !take_length, drop_length. lia.
Qed.

Lemma slice_from_range b i x : slice_from b i = Ok x -> 0 <= i <= zlen b.
Proof. unfold slice_from. destruct ((0 <=? i) && (i <=? zlen b)) eqn:E; [lia|discriminate]. Qed.
Lemma copy_at_range b i src x : copy_at b i src = Ok x -> 0 <= i <= zlen b.
Proof. unfold copy_at. destruct ((0 <=? i) && (i <=? zlen b)) eqn:E; [lia|discriminate]. Qed.
Lemma slice_to_range b i x : slice_to b i = Ok x -> 0 <= i <= zlen b.
Proof.
  unfold slice_to, slice_range. destruct ((0 <=? 0) && (0 <=? i)) eqn:E; [|discriminate].
  destruct (i <=? zlen b) eqn:E2; [lia|discriminate].
Qed.

(** A reslice that returns removes a real range of the buffer. *)
Lemma removed_range e fb n :
  0 <= e <= n -> 0 <= fb <= n -> n < 2 ^ 63 -> u64 (n - u64 (e - fb)) <= n ->
  0 <= u64 (e - fb) <= e.
Proof.
  intros He Hf Hn. unfold u64. pows. intros H.
  destruct (Z.le_gt_cases fb e) as [Hle|Hgt].
  - rewrite (Z.mod_small (e - fb)) by lia. lia.
  - exfalso. replace (e - fb) with ((e - fb + 18446744073709551616) + (-1) * 18446744073709551616) in H by lia.
    rewrite Z.mod_add, (Z.mod_small (e - fb + _)) in H by lia.
    replace (n - (e - fb + 18446744073709551616)) with ((n + fb - e) + (-1) * 18446744073709551616) in H by lia.
    rewrite Z.mod_add, Z.mod_small in H by lia. lia.
Qed.

Lemma p_setSingle_owf f typ vl v b o : owf o -> zlen b < 2 ^ 63 ->
  keeps o (p_setSingle f typ vl v (b, o)).2.
Proof.
  intros Ho Hb. set (G := keeps o).
  assert (G0 : forall b, G (b, o)) by (intros; split; done).
  unfold p_setSingle. unfold pbind at 1, pread.
  destruct (put_uvarint MaxVarintLen64 (make_tag f typ)) as [tb| | |]; try apply G0.
  unfold pbind at 1. cbn [fst snd].
  destruct (offsets_get o f) as [[off ok]| | |]; cbn [fst snd]; try apply G0.
  destruct ok; [|apply p_append_new_owf, Ho].
  unfold pbind at 1. cbn [fst snd].
  destruct (old_len b off typ) as [ol| | |]; try apply G0.
  destruct (ol =? zlen vl + zlen v).
  - unfold pbind at 1. rewrite p_copy_eq. cbn [fst snd].
    destruct (copy_at b off vl) as [[b1 n1]| | |]; try apply G0.
    unfold pbind at 1. rewrite p_copy_eq. cbn [fst snd].
    destruct (copy_at b1 _ v) as [[b2 n2]| | |]; apply G0.
  - unfold pbind at 1. cbn [fst snd].
    destruct (slice_from b _) as [src| | |] eqn:E1; try apply G0.
    unfold pbind at 1. rewrite p_copy_eq. cbn [fst snd].
    destruct (copy_at b _ src) as [[b1 n1]| | |] eqn:E2; try apply G0.
    unfold pbind at 1. cbn [fst snd].
    destruct (slice_to b1 _) as [b2| | |] eqn:E3; try apply G0.
    unfold pbind at 1, wbuf. cbn [fst snd]. unfold pbind at 1. cbn [fst snd].
    apply slice_from_range in E1. pose proof (copy_at_range _ _ _ _ E2) as E2'.
    apply copy_at_len in E2. apply slice_to_range in E3. rewrite E2 in E3.
    destruct (adjust_array_owf o (u64 (off + u64 ol)) (u64 (u64 (off + u64 ol) - u64 (off - u64 (zlen tb)))) Ho) as [A1 A2].
    { eapply removed_range; [exact E1|exact E2'|exact Hb|]. lia. }
    unfold pbind at 1. cbn [fst snd].
    match goal with |- context [p_adjust_map_keys ?ks ?e ?r (?b, ?o)] => pose proof (p_adjust_owf ks e r b o A1) as [B1 B2] end.
    rewrite ?E2 in *. cbn [oa] in B2.
    destruct (p_adjust_map_keys _ _ _ _) as [[u| | |] [b3 o3]]; cbn [fst snd] in *;
      try (split; [exact B1|etransitivity; [exact B2|exact A2]]).
    destruct (p_append_new_owf f tb vl v b3 o3 B1) as [C1 C2]. split; [exact C1|].
    etransitivity; [exact C2|]. etransitivity; [exact B2|exact A2].
Qed.

Lemma p_appendSingle_owf f typ vl v b o : owf o ->
  keeps o (p_appendSingle f typ vl v (b, o)).2.
Proof.
  intros Ho. set (G := keeps o).
  assert (G0 : forall b, G (b, o)) by (intros; split; done).
  unfold p_appendSingle. unfold pbind at 1, pread.
  destruct (put_uvarint MaxVarintLen64 (make_tag f typ)) as [tb| | |]; try apply G0.
  unfold pbind at 1. cbn [fst snd]. unfold pbind at 1. cbn [fst snd].
  destruct (offsets_get o f) as [[off ok]| | |]; cbn [fst snd]; try apply G0.
  destruct ok.
  - unfold pbind, pret; cbn. apply G0.
  - unfold pbind at 1. cbn [fst snd].
    pose proof (p_offsets_set_owf f (u64 (zlen (b ++ tb))) (b ++ tb) o Ho (u64_range _)) as H.
    destruct (p_offsets_set _ _ _) as [[u| | |] s]; cbn in *; done.
Qed.

Lemma p_decode_loop_owf fuel buf reps : forall idx b o, owf o ->
  keeps o (p_decode_loop fuel buf reps idx (b, o)).2.
Proof.
  induction fuel as [|fuel IH]; intros idx b o Ho; cbn [p_decode_loop]; [done|].
  set (G := keeps o).
  assert (G0 : forall b, G (b, o)) by (intros; split; done).
  destruct (idx =? zlen buf); [apply G0|].
  destruct (zlen buf <? idx); [apply G0|].
  unfold pbind at 1, pread at 1. destruct (slice_from buf idx) as [bs| | |]; try apply G0.
  destruct (uvarint bs) as [tag size].
  destruct (size =? 0); [apply G0|].
  destruct (zlen buf <=? i64 (idx + size)); [apply G0|].
  set (fid := i64 (Z.shiftr tag 3)). set (x := u64 (i64 (idx + size))).
  match goal with |- context [pbind ?p ?k (b, o)] => set (P := p); set (K := k) end.
  assert (HP : G (P (b, o)).2).
  { subst P. destruct (is_repeated reps fid).
    - unfold pbind at 1, pread. cbn [fst snd].
      destruct (offsets_get o fid) as [[? ok]| | |]; cbn [fst snd]; try apply G0.
      destruct ok; [apply G0|]. apply p_offsets_set_owf; [done|apply u64_range].
    - apply p_offsets_set_owf; [done|apply u64_range]. }
  unfold pbind at 1. destruct (P (b, o)) as [[u| | |] [b1 o1]]; cbn [fst snd] in *; try exact HP.
  subst K. cbn beta. unfold pbind, pread. cbn [fst snd].
  destruct (slice_from buf _) as [bs'| | |]; try exact HP.
  destruct (fieldDataSize _ bs') as [n| | |]; try exact HP.
  destruct (n =? 0); [exact HP|].
  destruct HP as [HP1 HP2]. cbn [snd] in HP1, HP2.
  destruct (IH (i64 (i64 (idx + size) + n)) b1 o1 HP1) as [I1 I2]. split; [exact I1|]. rewrite I2. exact HP2.
Qed.

Lemma pbind_ret_state {A B} (x : M A) (g : A -> B) s : (pbind x (fun a => pret (g a)) s).2 = (x s).2.
Proof. unfold pbind, pret. destruct (x s) as [[]]; done. Qed.

Lemma pbind_read_state {A B} (r : res A) (k : A -> M B) s (G : pst -> Prop) :
  G s -> (forall a, G (k a s).2) -> G (pbind (pread (fun _ => r)) k s).2.
Proof. intros H0 H. unfold pbind, pread. destruct r; cbn; auto. Qed.

Lemma call_st_state mt m c :
  let p := (match c with
     | CSet T f v => (p_set T f v (mbuf m, moff m)).2
     | CAppend f x => (p_append f x (mbuf m, moff m)).2
     | CDecode buf => (p_Decode mt buf (mbuf m, moff m)).2
     | CReset buf => (p_Reset buf (mbuf m, moff m)).2
     | _ => (mbuf m, moff m)
     end) in (call_st mt m c).2 = mkMsg p.1 p.2.
Proof.
  cbv zeta. unfold call_st.
  destruct c; try done;
    match goal with |- context [pbind ?x (fun a => pret (@?g a)) ?s] =>
      pose proof (pbind_ret_state x g s) as H; destruct (pbind x (fun a => pret (g a)) s) as [r s'] end;
    cbn [fst snd] in *; rewrite H; done.
Qed.

Lemma call_st_owf mt m c : owf (moff m) -> zlen (mbuf m) < 2 ^ 63 ->
  owf (moff (call_st mt m c).2) /\ zlen (oa (moff (call_st mt m c).2)) = zlen (oa (moff m)).
Proof.
  intros Ho Hb. rewrite call_st_state. cbn [moff].
  set (G := keeps (moff m)).
  match goal with |- owf ?x.2 /\ _ => change (G x) end.
  assert (G0 : forall b, G (b, moff m)) by (intros; split; done).
  destruct c as [T f|T f v|f x|mt' f x|n mt' f x| |buf|buf]; try apply G0.
  - assert (HS : forall typ vl v, G (p_setSingle f typ vl v (mbuf m, moff m)).2).
    { intros. apply p_setSingle_owf; done. }
    unfold p_set. destruct T, v; try apply G0; try apply HS;
      (apply pbind_read_state; [apply G0|intros; apply HS]).
  - unfold p_append. apply pbind_read_state; [apply G0|]. intros. apply p_appendSingle_owf, Ho.
  - unfold p_Decode, pbind at 1, wbuf. unfold pbind at 1. cbn [fst snd].
    destruct (offsets_clear_ok (moff m)) as (H1 & H2 & _).
    destruct (p_decode_loop_owf (fuel_of buf) buf (reps mt) 0 buf _ H1) as [A B].
    split; [exact A|]. rewrite B. exact H2.
  - unfold p_Reset. destruct (0 <? zlen buf); [apply G0|]. cbn.
    destruct (offsets_clear_ok (moff m)) as (H1 & H2 & _). split; done.
Qed.

Lemma reachable_owf mt m : reachable mt m -> owf (moff m) /\ zlen (oa (moff m)) = Z.of_nat (alen mt).
Proof.
  induction 1 as [|m c Hm [IH1 IH2] Hb].
  - destruct (offsets_zero_ok (alen mt)) as (A & B & _). done.
  - destruct (call_st_owf mt m c IH1 Hb) as [A B]. split; [done|]. lia.
Qed.

(** ** Which panics leave the struct as it was *)

Lemma adjust_key_ok e r k o : owf o -> exists o', adjust_map_key e r k o = Ok o' /\ owf o' /\ zlen (oa o') = zlen (oa o).
Proof.
  intros Ho. pose proof Ho as (_ & H2 & _). unfold adjust_map_key.
  destruct (om o) as [mm|] eqn:Em; [|eauto].
  destruct (mm !! k) as [x|] eqn:Ek; [|eauto]. destruct (e <? x); [|eauto].
  destruct (H2 k) as [[Hk1 Hk2] _]; [rewrite ?Em; cbn; rewrite Ek; eauto|].
  assert (Hr : in_range o k).
  { split; [done|]. apply lookup_lt_Some in Hk2. unfold zlen. lia. }
  destruct (offsets_set_ok o k (u64 (x - r)) Ho Hr (u64_range _)) as (o' & A & B & C & _). eauto.
Qed.

Lemma p_adjust_ok ks e r : forall b o, owf o ->
  exists o', p_adjust_map_keys ks e r (b, o) = (Ok tt, (b, o')) /\ owf o' /\ zlen (oa o') = zlen (oa o).
Proof.
  induction ks as [|k ks IH]; intros b o Ho; cbn [p_adjust_map_keys]; [exists o; done|].
  unfold pbind at 1 2, pread, woff. cbn [fst snd].
  destruct (adjust_key_ok e r k o Ho) as (o1 & -> & H1 & H2). cbn [fst snd].
  destruct (IH b o1 H1) as (o' & A & B & C). exists o'. split_and!; [exact A|exact B|lia].
Qed.

Lemma p_append_new_ok f tb vl v b o : owf o -> in_range o f ->
  exists s, p_append_new f tb vl v (b, o) = (Ok tt, s).
Proof.
  intros Ho Hf. unfold p_append_new, pbind at 1. cbn [fst snd]. unfold pbind at 1. cbn [fst snd].
  rewrite p_offsets_set_eq. cbn [fst snd].
  destruct (offsets_set_ok o f (u64 (zlen (b ++ tb))) Ho Hf (u64_range _)) as (o' & -> & _). cbn. eauto.
Qed.

Lemma offsets_get_in_range o f x : offsets_get o f = Ok x -> in_range o f.
Proof.
  intros E. destruct (decide (0 <= f < zlen (oa o))) as [H|H]; [exact H|].
  rewrite offsets_get_out in E by exact H. discriminate.
Qed.

Definition atomic (s0 : pst) (p : res unit * pst) : Prop :=
  match p.1 with
  | Ok _ => True
  | Panic => p.2 = s0
  | PastLen => p.2.2 = s0.2 /\ zlen p.2.1 = zlen s0.1
  | OutOfFuel => False
  end.

Lemma copy_at_ok b i src : 0 <= i <= zlen b ->
  exists b', copy_at b i src = Ok (b', Z.min (zlen b - i) (zlen src)) /\ zlen b' = zlen b.
Proof.
  intros H. destruct (copy_at b i src) as [[b' n]| | |] eqn:E; unfold copy_at in E;
    replace ((0 <=? i) && (i <=? zlen b)) with true in E by lia; try discriminate.
  exists b'. injection E as E1 E2. rewrite <- E2. split; [done|].
  eapply (copy_at_len b i src b' n). unfold copy_at. replace ((0 <=? i) && (i <=? zlen b)) with true by lia.
  rewrite E1, E2. done.
Qed.

Lemma old_len_res b off typ : old_len b off typ = Panic \/ exists n, old_len b off typ = Ok n.
Proof.
  unfold old_len. destruct (typ =? WireVarint).
  { unfold slice_from. destruct (_ && _); cbn; [|auto]. destruct (uvarint _). eauto. }
  destruct (typ =? WireFixed32); [eauto|]. destruct (typ =? WireFixed64); [eauto|].
  destruct (typ =? WireBytes); [|auto].
  unfold slice_from. destruct (_ && _); cbn; [|auto]. destruct (uvarint _). eauto.
Qed.

Lemma p_setSingle_atomic f typ vl v b o : owf o -> zlen b < 2 ^ 63 ->
  atomic (b, o) (p_setSingle f typ vl v (b, o)).
Proof.
  intros Ho Hb. unfold p_setSingle. unfold pbind at 1, pread.
  destruct (put_uvarint_res MaxVarintLen64 (make_tag f typ)) as [->|(tb & -> & _)]; [done|].
  unfold pbind at 1. cbn [fst snd].
  destruct (offsets_get_res o f) as [->|[[off ok] E]]; [done|]. rewrite E. cbn [fst snd].
  apply offsets_get_in_range in E.
  destruct ok.
  2:{ destruct (p_append_new_ok f tb vl v b o Ho E) as [s ->]. done. }
  unfold pbind at 1. cbn [fst snd].
  destruct (old_len_res b off typ) as [->|[ol ->]]; [done|].
  destruct (ol =? zlen vl + zlen v).
  - unfold pbind at 1. rewrite p_copy_eq. cbn [fst snd].
    destruct (decide (0 <= off <= zlen b)) as [Hr|Hr].
    2:{ unfold copy_at. replace ((0 <=? off) && (off <=? zlen b)) with false by lia. done. }
    destruct (copy_at_ok b off vl Hr) as (b1 & -> & Hl). cbn [fst snd].
    unfold pbind at 1. rewrite p_copy_eq. cbn [fst snd].
    destruct (copy_at_ok b1 (u64 (off + u64 (Z.min (zlen b - off) (zlen vl)))) v) as (b2 & -> & _); [|done].
    unfold u64. pows. unfold zlen in *.
    rewrite (Z.mod_small (Z.min _ _)) by lia. rewrite Z.mod_small by lia. lia.
  - unfold pbind at 1. cbn [fst snd].
    set (e := u64 (off + u64 ol)). set (fb := u64 (off - u64 (zlen tb))).
    unfold slice_from. destruct ((0 <=? e) && (e <=? zlen b)) eqn:E1; [|done].
    unfold pbind at 1. rewrite p_copy_eq. cbn [fst snd].
    destruct (decide (0 <= fb <= zlen b)) as [Hr|Hr].
    2:{ unfold copy_at. replace ((0 <=? fb) && (fb <=? zlen b)) with false by lia. done. }
    destruct (copy_at_ok b fb (drop (Z.to_nat e) b) Hr) as (b1 & -> & Hl). cbn [fst snd].
    unfold pbind at 1. cbn [fst snd].
    unfold slice_to, slice_range.
    pose proof (u64_range (zlen b1 - u64 (e - fb))) as Hu.
    replace ((0 <=? 0) && (0 <=? u64 (zlen b1 - u64 (e - fb)))) with true by lia.
    destruct (u64 (zlen b1 - u64 (e - fb)) <=? zlen b1) eqn:E3; [|split; done].
    unfold pbind at 1, wbuf. cbn [fst snd]. unfold pbind at 1. cbn [fst snd]. unfold pbind at 1. cbn [fst snd].
    destruct (adjust_array_owf o e (u64 (e - fb)) Ho) as [A1 A2].
    { rewrite Hl in E3. apply (removed_range e fb (zlen b)); lia. }
    match goal with |- context [p_adjust_map_keys ?ks ?e ?r (?b, ?o)] =>
      destruct (p_adjust_ok ks e r b o A1) as (o3 & B0 & B1 & B2) end.
    rewrite B0. cbn [oa] in B2.
    match goal with |- context [p_append_new f tb vl v (?b, o3)] =>
      destruct (p_append_new_ok f tb vl v b o3 B1) as [s ->] end; [|done].
    unfold in_range in *. lia.
Qed.

Lemma p_set_atomic T f v m : owf (moff m) -> zlen (mbuf m) < 2 ^ 63 ->
  atomic (mbuf m, moff m) (p_set T f v (mbuf m, moff m)).
Proof.
  intros Ho Hb.
  assert (HS : forall typ vl v, atomic (mbuf m, moff m) (p_setSingle f typ vl v (mbuf m, moff m))).
  { intros. apply p_setSingle_atomic; done. }
  assert (HR : forall A (r : res A) (k : A -> M unit), (r = Panic \/ exists a, r = Ok a) ->
     (forall a, atomic (mbuf m, moff m) (k a (mbuf m, moff m))) ->
     atomic (mbuf m, moff m) (pbind (pread (fun _ => r)) k (mbuf m, moff m))).
  { intros A r k [->|[a ->]] H; unfold pbind, pread; [done|apply H]. }
  unfold p_set. destruct T, v; try apply HS; try done;
    (apply HR; [|intros; apply HS]); unfold put_varint;
    match goal with |- context [put_uvarint ?c ?x] => destruct (put_uvarint_res c x) as [->|(vb & -> & _)] end; eauto.
Qed.

Lemma p_append_ok f x m : owf (moff m) -> in_range (moff m) f ->
  exists s, p_append f x (mbuf m, moff m) = (Ok tt, s).
Proof.
  intros Ho Hf.
  assert (HU : forall x, exists vb, put_uvarint MaxVarintLen64 (u64 x) = Ok vb).
  { intros y. destruct (put_uvarint_minimal MaxVarintLen64 (u64 y)) as (vb & E & _).
    - apply u64_range.
    - pose proof (u64_range y). change (2 ^ (7 * Z.of_nat MaxVarintLen64)) with (2 ^ 70). pows. lia.
    - unfold MaxVarintLen64. lia.
    - eauto. }
  unfold p_append. unfold pbind at 1, pread at 1.
  destruct (HU (zlen x)) as [vl ->].
  unfold p_appendSingle. unfold pbind at 1, pread at 1. unfold make_tag.
  destruct (HU (Z.lor (i64 (f ≪ 3)) WireBytes)) as [tb ->].
  unfold pbind at 1. cbn [fst snd]. unfold pbind at 1, pread at 1. cbn [fst snd].
  destruct (offsets_get (moff m) f) as [[off ok]| | |] eqn:E.
  2,3,4: exfalso; pose proof (offsets_get_eq _ _ Ho Hf) as Q; rewrite E in Q;
         destruct (ofun (moff m) f); discriminate.
  cbn [fst snd]. destruct ok.
  - unfold pbind, pret; cbn. eauto.
  - unfold pbind at 1. cbn [fst snd]. rewrite p_offsets_set_eq. cbn [fst snd].
    match goal with |- context [offsets_set _ f ?y] =>
      destruct (offsets_set_ok (moff m) f y Ho Hf (u64_range _)) as (o' & -> & _) end.
    cbn. eauto.
Qed.

Lemma uvarint_size_le buf : (uvarint buf).2 <= 10.
Proof.
  unfold uvarint.
  assert (H : forall i x s, (uvarint_loop buf i x s).2 <= 10).
  { induction buf as [|b buf IH]; intros i x s; cbn [uvarint_loop]; [cbn; lia|].
    destruct (b <? 128); [|apply IH].
    destruct ((9 <? i) || ((i =? 9) && (1 <? b))) eqn:E; cbn; lia. }
  apply H.
Qed.

Lemma uvarint_nonneg buf : 0 <= (uvarint buf).1.
Proof.
  unfold uvarint.
  assert (H : forall i x s, 0 <= x -> 0 <= (uvarint_loop buf i x s).1).
  { induction buf as [|b buf IH]; intros i x s Hx; cbn [uvarint_loop]; [cbn; lia|].
    assert (HL : forall y, 0 <= Z.lor x (u64 y)).
    { intros y. apply Z.lor_nonneg. split; [done|]. apply u64_range. }
    destruct (b <? 128); [|apply IH; done].
    destruct ((9 <? i) || ((i =? 9) && (1 <? b))) eqn:E; cbn; [lia|]. apply HL. }
  apply H. lia.
Qed.

(** The only slice expression of a setter that can reach past the length is the
    reslice of the buffer, and only if the size of the old value came out
    negative. *)
Lemma p_setSingle_past f typ vl v b o : owf o -> zlen b < 2 ^ 62 ->
  (p_setSingle f typ vl v (b, o)).1 = PastLen ->
  exists off ol, offsets_get o f = Ok (off, true) /\ old_len b off typ = Ok ol /\ ol < 0.
Proof.
  intros Ho Hb. assert (Hb3 : zlen b < 2 ^ 63) by (pows; lia). unfold p_setSingle. unfold pbind at 1, pread.
  destruct (put_uvarint MaxVarintLen64 (make_tag f typ)) as [tb| | |] eqn:Et; try done.
  2:{ destruct (put_uvarint_res MaxVarintLen64 (make_tag f typ)) as [Q|(? & Q & _)]; congruence. }
  assert (Htb : zlen tb <= 10).
  { destruct (put_uvarint_minimal MaxVarintLen64 (make_tag f typ)) as (vb & E & Hv).
    - apply u64_range.
    - pose proof (u64_range (Z.lor (i64 (f ≪ 3)) typ)).
      change (2 ^ (7 * Z.of_nat MaxVarintLen64)) with (2 ^ 70). unfold make_tag. pows. lia.
    - unfold MaxVarintLen64. lia.
    - rewrite Et in E. injection E as <-. destruct Hv as [(? & ? & _ & _ & _ & Hv & _) _]. unfold zlen. lia. }
  unfold pbind at 1. cbn [fst snd].
  destruct (offsets_get_res o f) as [->|[[off ok] E]]; [done|]. rewrite E. cbn [fst snd].
  pose proof E as Er. apply offsets_get_in_range in Er.
  destruct ok.
  2:{ destruct (p_append_new_ok f tb vl v b o Ho Er) as [s ->]. done. }
  unfold pbind at 1. cbn [fst snd].
  destruct (old_len_res b off typ) as [->|[ol Eo]]; [done|]. rewrite Eo.
  destruct (ol =? zlen vl + zlen v).
  - unfold pbind at 1. rewrite p_copy_eq. cbn [fst snd].
    unfold copy_at at 1. destruct (_ && _); [|done].
    unfold pbind at 1. rewrite p_copy_eq. cbn [fst snd].
    unfold copy_at at 1. destruct (_ && _); done.
  - intros Hp. exists off, ol. split; [done|]. split; [done|]. revert Hp.
    unfold pbind at 1. cbn [fst snd].
    destruct (Z.lt_ge_cases ol 0) as [Hneg|Hpos]; [done|].
    set (e := u64 (off + u64 ol)). set (fb := u64 (off - u64 (zlen tb))).
    unfold slice_from. destruct ((0 <=? e) && (e <=? zlen b)) eqn:E1; [|done].
    unfold pbind at 1. rewrite p_copy_eq. cbn [fst snd].
    destruct (decide (0 <= fb <= zlen b)) as [Hr|Hr].
    2:{ unfold copy_at. replace ((0 <=? fb) && (fb <=? zlen b)) with false by lia. done. }
    destruct (copy_at_ok b fb (drop (Z.to_nat e) b) Hr) as (b1 & -> & Hl). cbn [fst snd].
    unfold pbind at 1. cbn [fst snd].
    unfold slice_to, slice_range.
    pose proof (u64_range (zlen b1 - u64 (e - fb))) as Hu.
    replace ((0 <=? 0) && (0 <=? u64 (zlen b1 - u64 (e - fb)))) with true by lia.
    destruct (u64 (zlen b1 - u64 (e - fb)) <=? zlen b1) eqn:E3.
    { unfold pbind at 1, wbuf. cbn [fst snd]. unfold pbind at 1. cbn [fst snd]. unfold pbind at 1. cbn [fst snd].
      destruct (adjust_array_owf o e (u64 (e - fb)) Ho) as [A1 A2].
      { rewrite Hl in E3. apply (removed_range e fb (zlen b)); lia. }
      match goal with |- context [p_adjust_map_keys ?ks ?e ?r (?b, ?o)] =>
        destruct (p_adjust_ok ks e r b o A1) as (o3 & B0 & B1 & B2) end.
      rewrite B0. cbn [oa] in B2.
      match goal with |- context [p_append_new f tb vl v (?b, o3)] =>
        destruct (p_append_new_ok f tb vl v b o3 B1) as [s ->] end; [|done].
      unfold in_range in *. lia. }
    intros _. exfalso. rewrite Hl in E3.
    assert (Holm : ol < 2 ^ 63).
    { clear - Eo Hb. unfold old_len in Eo.
      assert (H64 : forall x, i64 x < 2 ^ 63).
      { intros x. unfold i64. pose proof (Z.mod_pos_bound (x + 9223372036854775808) 18446744073709551616). pows. lia. }
      destruct (typ =? WireVarint).
      { destruct (slice_from b off) as [r| | |] eqn:Es; try discriminate. cbn in Eo.
        destruct (uvarint r) as [x n] eqn:Eu. injection Eo as <-.
        pose proof (uvarint_size_le r) as Hs. rewrite Eu in Hs. cbn in Hs. pows. lia. }
      destruct (typ =? WireFixed32); [injection Eo as <-; pows; lia|].
      destruct (typ =? WireFixed64); [injection Eo as <-; pows; lia|].
      destruct (typ =? WireBytes); [|discriminate].
      destruct (slice_from b off) as [r| | |] eqn:Es; try discriminate. cbn in Eo.
      destruct (uvarint r) as [x n] eqn:Eu. injection Eo as <-. apply H64. }
    assert (Hd : exists k, e - fb = ol + zlen tb + k * 18446744073709551616).
    { subst e fb. unfold u64.
      pose proof (Z.div_mod (off + ol mod 18446744073709551616) 18446744073709551616 ltac:(lia)) as D1.
      pose proof (Z.div_mod (off - zlen tb mod 18446744073709551616) 18446744073709551616 ltac:(lia)) as D2.
      pows. unfold zlen in *.
      rewrite (Z.mod_small ol) in * by lia. rewrite (Z.mod_small (Z.of_nat _)) in * by lia.
      eexists ((off - Z.of_nat (length tb)) / 18446744073709551616 - (off + ol) / 18446744073709551616). lia. }
    destruct Hd as [k Hk]. pows. unfold zlen in *.
    change (2 ^ 62) with 4611686018427387904 in *.
    assert (k = 0) by lia. subst k.
    rewrite Hk in E3. unfold u64 in E3. rewrite (Z.mod_small (ol + _ + _)) in E3 by lia.
    rewrite Z.mod_small in E3 by lia. lia.
Qed.

Lemma old_len_negative b off typ ol : old_len b off typ = Ok ol -> ol < 0 ->
  (typ = WireVarint \/ typ = WireBytes) /\
  exists x n, uvarint (drop (Z.to_nat off) b) = (x, n) /\ (n < 0 \/ (typ = WireBytes /\ 2 ^ 63 <= x + n)).
Proof.
  intros E Hn. unfold old_len in E. destruct (Z.eqb_spec typ WireVarint) as [->|Hv0].
  { unfold slice_from in E. destruct (_ && _); [|discriminate]. cbn in E.
    destruct (uvarint _) as [x n] eqn:Eu. injection E as ->. split; [auto|]. eauto. }
  destruct (typ =? WireFixed32); [injection E as <-; lia|].
  destruct (typ =? WireFixed64); [injection E as <-; lia|].
  destruct (Z.eqb_spec typ WireBytes) as [->|Hb0]; [|discriminate].
  unfold slice_from in E. destruct (_ && _); [|discriminate]. cbn in E.
  destruct (uvarint _) as [x n] eqn:Eu. injection E as E. split; [auto|].
  exists x, n. split; [done|]. destruct (Z.lt_ge_cases n 0) as [|Hge]; [auto|]. right. split; [done|].
  destruct (Z.lt_ge_cases (x + n) (2 ^ 63)) as [Hlt|]; [|done]. exfalso.
  assert (0 <= x) by (pose proof (uvarint_nonneg (drop (Z.to_nat off) b)) as Q; rewrite Eu in Q; exact Q).
  unfold i64 in E. pows. rewrite (Z.mod_small (x + _)) in E by lia.
  rewrite Z.mod_small in E by lia. lia.
Qed.

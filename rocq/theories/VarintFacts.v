(** * Facts about [encoding/binary] *)
From Verif Require Import Varint Spec.
From Coq Require Import ZifyBool.

Lemma zlen_app {A} (l1 l2 : list A) : zlen (l1 ++ l2) = zlen l1 + zlen l2.
Proof. unfold zlen. rewrite app_length. lia. Qed.
Lemma zlen_nonneg {A} (l : list A) : 0 <= zlen l.
Proof. unfold zlen. lia. Qed.
Lemma zlen_nil : zlen (@nil Z) = 0.
Proof. reflexivity. Qed.
Lemma zlen_cons {A} (x : A) l : zlen (x :: l) = 1 + zlen l.
Proof. unfold zlen. cbn [length]. lia. Qed.
Lemma to_nat_zlen {A} (l : list A) : Z.to_nat (zlen l) = length l.
Proof. unfold zlen. lia. Qed.

(** ** Bit arithmetic *)
Lemma lor_shiftl_add x y s :
  0 <= s -> 0 <= x < 2 ^ s -> 0 <= y -> Z.lor x (Z.shiftl y s) = x + y * 2 ^ s.
Proof.
  intros Hs Hx Hy.
  rewrite <- Z.shiftl_mul_pow2 by lia.
  assert (Hl : Z.land x (Z.shiftl y s) = 0).
  { apply Z.bits_inj'. intros n Hn. rewrite Z.land_spec, Z.bits_0.
    destruct (Z.lt_ge_cases n s) as [Hlt|Hge].
    - rewrite Z.shiftl_spec_low by lia. apply andb_false_r.
    - replace x with (x mod 2 ^ s) by (apply Z.mod_small; lia).
      rewrite Z.mod_pow2_bits_high by lia. reflexivity. }
  rewrite <- Z.lxor_lor by exact Hl. symmetry. apply Z.add_nocarry_lxor. exact Hl.
Qed.

Lemma land_127 b : Z.land b 127 = b mod 128.
Proof. change 127 with (Z.ones 7). rewrite Z.land_ones by lia. reflexivity. Qed.
Lemma land_7 b : Z.land b 7 = b mod 8.
Proof. change 7 with (Z.ones 3). rewrite Z.land_ones by lia. reflexivity. Qed.
Lemma land_1 b : Z.land b 1 = b mod 2.
Proof. change 1 with (Z.ones 1) at 1. rewrite Z.land_ones by lia. reflexivity. Qed.
Lemma shiftr_7 x : Z.shiftr x 7 = x / 128.
Proof. rewrite Z.shiftr_div_pow2 by lia. reflexivity. Qed.
Lemma shiftr_3 x : Z.shiftr x 3 = x / 8.
Proof. rewrite Z.shiftr_div_pow2 by lia. reflexivity. Qed.
Lemma shiftr_1 x : Z.shiftr x 1 = x / 2.
Proof. rewrite Z.shiftr_div_pow2 by lia. reflexivity. Qed.

Lemma base128_nonneg bs : 0 <= base128 bs.
Proof.
  induction bs as [|b bs IH]; cbn [base128]; [lia|].
  pose proof (Z.mod_pos_bound b 128). lia.
Qed.

Lemma base128_lt bs : base128 bs < 2 ^ (7 * zlen bs).
Proof.
  induction bs as [|b bs IH]; cbn [base128]; [reflexivity|].
  pose proof (Z.mod_pos_bound b 128).
  rewrite zlen_cons. pose proof (zlen_nonneg bs).
  replace (7 * (1 + zlen bs)) with (7 + 7 * zlen bs) by lia.
  rewrite Z.pow_add_r by lia. change (2 ^ 7) with 128. nia.
Qed.

Lemma base128_app l1 l2 : base128 (l1 ++ l2) = base128 l1 + 2 ^ (7 * zlen l1) * base128 l2.
Proof.
  induction l1 as [|b l1 IH]; cbn [base128 app].
  - rewrite zlen_nil. change (2 ^ (7 * 0)) with 1. lia.
  - rewrite IH, zlen_cons. pose proof (zlen_nonneg l1).
    replace (7 * (1 + zlen l1)) with (7 + 7 * zlen l1) by lia.
    rewrite Z.pow_add_r by lia. change (2 ^ 7) with 128. lia.
Qed.

(** ** [Uvarint] reads every legal encoding *)
Lemma uvarint_loop_spec init lst r i x :
  Forall (fun b => 128 <= b < 256) init ->
  0 <= lst < 128 -> 0 <= i -> i + zlen init <= 9 ->
  0 <= x < 2 ^ (7 * i) ->
  x + 2 ^ (7 * i) * base128 (init ++ [lst]) < 2 ^ 64 ->
  uvarint_loop (init ++ lst :: r) i x (7 * i) =
    (x + 2 ^ (7 * i) * base128 (init ++ [lst]), i + zlen init + 1).
Proof.
  revert i x. induction init as [|b init IH]; intros i x Hin Hl Hi Hlen Hx Hv.
  - cbn [app base128] in *. cbn [uvarint_loop].
    rewrite Z.mod_small in * by lia.
    replace (lst <? 128) with true by lia.
    assert (Hc : ((9 <? i) || ((i =? 9) && (1 <? lst))) = false).
    { rewrite zlen_nil in Hlen.
      destruct (Z.eqb_spec i 9) as [->|Hne]; [|lia].
      change (2 ^ (7 * 9)) with 9223372036854775808 in *.
      change (2 ^ 64) with 18446744073709551616 in *. lia. }
    rewrite Hc. unfold u64.
    assert (Hp : 0 < 2 ^ (7 * i)) by (apply Z.pow_pos_nonneg; lia).
    rewrite Z.mod_small.
    + rewrite lor_shiftl_add by lia. rewrite zlen_nil. f_equal; lia.
    + rewrite Z.shiftl_mul_pow2 by lia. change (2 ^ 64) with 18446744073709551616 in *. lia.
  - apply Forall_cons in Hin as [Hb Hin].
    rewrite zlen_cons in *. pose proof (zlen_nonneg init) as Hn.
    cbn [app uvarint_loop]. replace (b <? 128) with false by lia.
    rewrite land_127. cbn [base128 app] in *.
    pose proof (Z.mod_pos_bound b 128 ltac:(lia)) as Hm.
    pose proof (base128_nonneg (init ++ [lst])) as Hnn.
    assert (Hp : 0 < 2 ^ (7 * i)) by (apply Z.pow_pos_nonneg; lia).
    unfold u64. rewrite Z.mod_small.
    2:{ rewrite Z.shiftl_mul_pow2 by lia. change (2 ^ 64) with 18446744073709551616 in *. nia. }
    rewrite lor_shiftl_add by lia.
    replace (7 * i + 7) with (7 * (i + 1)) by lia.
    assert (Hpow : 2 ^ (7 * (i + 1)) = 128 * 2 ^ (7 * i)).
    { replace (7 * (i + 1)) with (7 + 7 * i) by lia. rewrite Z.pow_add_r by lia. reflexivity. }
    rewrite IH; try assumption; try lia; rewrite Hpow; [f_equal; lia|nia].
Qed.

Lemma uvarint_spec v vb r : is_varint v vb -> uvarint (vb ++ r) = (v, zlen vb).
Proof.
  intros (init & lst & -> & Hin & Hl & Hlen & Hv & Hlt).
  unfold uvarint. rewrite <- app_assoc. cbn [app].
  change (uvarint_loop (init ++ lst :: r) 0 0 0)
    with (uvarint_loop (init ++ lst :: r) 0 0 (7 * 0)).
  rewrite (uvarint_loop_spec init lst r 0 0); try assumption; try lia.
  - rewrite zlen_app. change (2 ^ (7 * 0)) with 1. rewrite Hv.
    f_equal; unfold zlen; cbn [length]; lia.
  - rewrite app_length in Hlen. cbn [length] in Hlen. unfold zlen. lia.
Qed.

Lemma uvarint_spec' v vb : is_varint v vb -> uvarint vb = (v, zlen vb).
Proof. intros H. rewrite <- (app_nil_r vb) at 1. apply uvarint_spec, H. Qed.

Lemma is_varint_nonneg v vb : is_varint v vb -> 0 <= v < 2 ^ 64.
Proof.
  intros (init & lst & -> & Hin & Hl & Hlen & Hv & Hlt).
  split; [|assumption]. subst v. apply base128_nonneg.
Qed.

Lemma is_varint_len v vb : is_varint v vb -> 1 <= zlen vb <= 10.
Proof.
  intros (init & lst & -> & Hin & Hl & Hlen & Hv & Hlt).
  unfold zlen. rewrite app_length in *. cbn [length] in *. lia.
Qed.

Lemma is_varint_bytes v vb : is_varint v vb -> Forall is_byte vb.
Proof.
  intros (init & lst & -> & Hin & Hl & Hlen & Hv & Hlt).
  apply Forall_app. split.
  - eapply Forall_impl; [exact Hin|]. unfold is_byte. intros; cbn in *; lia.
  - apply Forall_singleton. unfold is_byte. lia.
Qed.

(** ** What [Uvarint] returns tells what is in the buffer *)
Lemma uvarint_loop_inv buf i x s v n :
  Forall is_byte buf -> 0 <= i -> uvarint_loop buf i x s = (v, n) ->
  (n = 0 /\ Forall (fun b => 128 <= b < 256) buf) \/
  (exists init lst r, buf = init ++ lst :: r /\
     Forall (fun b => 128 <= b < 256) init /\ 0 <= lst < 128 /\
     ((n = i + zlen init + 1 /\ (i + zlen init < 9 \/ (i + zlen init = 9 /\ lst <= 1))) \/
      (n = - (i + zlen init + 1) /\ v = 0 /\
         (9 < i + zlen init \/ (i + zlen init = 9 /\ 1 < lst))))).
Proof.
  revert i x s. induction buf as [|b buf IH]; intros i x s Hb Hi Hu; cbn [uvarint_loop] in Hu.
  - injection Hu as <- <-. left. split; [reflexivity|constructor].
  - apply Forall_cons in Hb as [Hb Hbs]. unfold is_byte in Hb.
    destruct (Z.ltb_spec b 128) as [Hlt|Hge].
    + right. exists [], b, buf. rewrite zlen_nil. cbn [app].
      split; [reflexivity|]. split; [constructor|]. split; [lia|].
      destruct ((9 <? i) || ((i =? 9) && (1 <? b))) eqn:Hc; injection Hu as <- <-.
      * right. lia.
      * left. lia.
    + apply IH in Hu; [|assumption|lia].
      destruct Hu as [[-> Hall]|(init & lst & r & -> & Hin & Hl & Hn)].
      * left. split; [reflexivity|]. constructor; [lia|assumption].
      * right. exists (b :: init), lst, r. rewrite zlen_cons.
        split; [reflexivity|]. split; [constructor; [lia|assumption]|].
        split; [assumption|]. lia.
Qed.


Lemma base128_snoc_lt init lst :
  0 <= lst < 128 -> zlen init < 9 \/ (zlen init = 9 /\ lst <= 1) ->
  base128 (init ++ [lst]) < 2 ^ 64.
Proof.
  intros Hl Hc. rewrite base128_app. cbn [base128]. rewrite Z.mod_small by lia.
  pose proof (base128_lt init) as Hlt. pose proof (zlen_nonneg init).
  assert (Hcase : zlen init <= 8 \/ (zlen init = 9 /\ lst <= 1)) by lia.
  destruct Hcase as [Hc'|[Hc' Hl']].
  - assert (2 ^ (7 * zlen init) <= 2 ^ 56) by (apply Z.pow_le_mono_r; lia).
    change (2 ^ 56) with 72057594037927936 in *.
    change (2 ^ 64) with 18446744073709551616. nia.
  - rewrite Hc' in *. change (2 ^ (7 * 9)) with 9223372036854775808 in *.
    change (2 ^ 64) with 18446744073709551616. lia.
Qed.

Lemma uvarint_cases buf :
  Forall is_byte buf ->
  (uvarint buf = (0, 0) /\ Forall (fun b => 128 <= b < 256) buf) \/
  (exists v vb r, buf = vb ++ r /\ is_varint v vb /\ uvarint buf = (v, zlen vb)) \/
  (overlong buf /\ (uvarint buf).1 = 0 /\ (uvarint buf).2 <= - 10 /\
     - zlen buf <= (uvarint buf).2).
Proof.
  intros Hb. destruct (uvarint buf) as [v n] eqn:Hu. unfold uvarint in Hu.
  pose proof Hu as Hu'. apply uvarint_loop_inv in Hu; [|assumption|lia].
  destruct Hu as [[-> Hall]|(init & lst & r & -> & Hin & Hl & [[-> Hc]|(-> & -> & Hc)])].
  - left. split; [|assumption]. f_equal.
    clear Hb. revert Hu'. generalize 0 at 1 2 3 as x. revert v.
    assert (Hg : forall buf i x s v n, Forall (fun b => 128 <= b < 256) buf ->
      uvarint_loop buf i x s = (v, n) -> v = 0).
    { clear. induction buf as [|b buf IH]; intros i x s v n Hall Hu; cbn [uvarint_loop] in Hu.
      - congruence.
      - apply Forall_cons in Hall as [Hb Hall].
        replace (b <? 128) with false in Hu by lia. eapply IH; eassumption. }
    intros v x Hu. eapply Hg; eassumption.
  - right. left. exists (base128 (init ++ [lst])), (init ++ [lst]), r.
    assert (Hv : is_varint (base128 (init ++ [lst])) (init ++ [lst])).
    { exists init, lst. split_and!; try assumption; try reflexivity; try lia.
      - rewrite app_length. cbn [length]. unfold zlen in Hc. lia.
      - apply base128_snoc_lt; [assumption|lia]. }
    split; [rewrite <- app_assoc; reflexivity|]. split; [exact Hv|].
    pose proof (uvarint_spec _ _ r Hv) as He. rewrite <- app_assoc in He. cbn [app] in He.
    unfold uvarint in He. rewrite He in Hu'. congruence.
  - right. right. cbn [fst snd]. pose proof (zlen_nonneg init).
    split; [|split; [reflexivity|]].
    + exists init, lst, r. split_and!; try assumption; try reflexivity; lia.
    + rewrite zlen_app, zlen_cons. pose proof (zlen_nonneg r). lia.
Qed.

(** ** The two Go versions of the loop agree unless the varint is overlong *)
Lemma uvarint_117_agree buf :
  Forall is_byte buf -> ~ overlong buf -> (length buf <= 10)%nat \/ Exists (fun b => b < 128) buf ->
  uvarint_117 buf = uvarint buf.
Proof.
  intros Hb Hno Hex. unfold uvarint_117, uvarint.
  assert (Hg : forall buf i x s, Forall is_byte buf -> 0 <= i ->
    (zlen buf <= 10 - i \/ Exists (fun b => b < 128) buf) ->
    (forall init lst r, buf = init ++ lst :: r -> Forall (fun b => 128 <= b < 256) init ->
       0 <= lst < 128 -> i + zlen init < 9 \/ (i + zlen init = 9 /\ lst <= 1)) ->
    uvarint_loop_117 buf i x s = uvarint_loop buf i x s).
  { clear. induction buf as [|b buf IH]; intros i x s Hb Hi Hex Hno; [reflexivity|].
    apply Forall_cons in Hb as [Hb Hbs]. unfold is_byte in Hb.
    cbn [uvarint_loop uvarint_loop_117].
    destruct (Z.ltb_spec b 128) as [Hlt|Hge].
    - destruct (Hno [] b buf eq_refl) as [H|H]; [constructor|lia| |]; rewrite zlen_nil in H.
      + replace (i =? 10) with false by lia. replace (9 <? i) with false by lia. reflexivity.
      + replace (i =? 10) with false by lia. replace (9 <? i) with false by lia. reflexivity.
    - rewrite zlen_cons in Hex.
      assert (Hi10 : i <> 10).
      { intros ->. destruct Hex as [Hex|Hex]; [pose proof (zlen_nonneg buf); lia|].
        apply Exists_cons in Hex as [Hex|Hex]; [lia|].
        assert (Hsplit : exists init lst r, buf = init ++ lst :: r /\
          Forall (fun b => 128 <= b < 256) init /\ 0 <= lst < 128).
        { clear Hno IH. induction buf as [|c buf IH2]; [inversion Hex|].
          apply Forall_cons in Hbs as [Hc Hbs]. unfold is_byte in Hc.
          destruct (Z.ltb_spec c 128).
          - exists [], c, buf. split_and!; [reflexivity|constructor|lia|lia].
          - apply Exists_cons in Hex as [Hex|Hex]; [lia|].
            destruct (IH2 Hbs Hex) as (init & lst & r & -> & Hin & Hl).
            exists (c :: init), lst, r. split_and!; [reflexivity| |lia|lia].
            constructor; [lia|assumption]. }
        destruct Hsplit as (init & lst & r & -> & Hin & Hl).
        pose proof (Hno (b :: init) lst r eq_refl) as Hbad.
        rewrite zlen_cons in Hbad. pose proof (zlen_nonneg init).
        destruct Hbad; [constructor; [lia|assumption]|lia|lia|lia]. }
      replace (i =? 10) with false by lia.
      apply IH; [assumption|lia| |].
      + destruct Hex as [Hex|Hex]; [left; lia|].
        apply Exists_cons in Hex as [Hex|Hex]; [lia|right; assumption].
      + intros init lst r -> Hin Hl.
        pose proof (Hno (b :: init) lst r eq_refl) as Hok. rewrite zlen_cons in Hok.
        destruct Hok; [constructor; [lia|assumption]|lia|lia|lia]. }
  apply Hg; [assumption|lia| |].
  - destruct Hex as [Hex|Hex]; [left; unfold zlen; lia|right; assumption].
  - intros init lst r -> Hin Hl.
    destruct (Z.le_gt_cases (zlen init) 8) as [|H9]; [lia|].
    destruct (decide (zlen init = 9 /\ lst <= 1)); [lia|].
    exfalso. apply Hno. exists init, lst, r. split_and!; try reflexivity; try assumption; unfold zlen in *; lia.
Qed.

(** ** [PutUvarint] writes the minimal encoding *)
Lemma lor_128 x : 0 <= x -> Z.lor (u8 x) 128 = x mod 128 + 128.
Proof.
  intros Hx. unfold u8.
  pose proof (Z.mod_pos_bound x 256 ltac:(lia)) as Hm.
  set (y := x mod 256) in *.
  assert (Hy : x mod 128 = y mod 128).
  { subst y. change 256 with (128 * 2). rewrite Z.rem_mul_r by lia.
    rewrite Z.mul_comm, Z.mod_add, Z.mod_mod by lia. reflexivity. }
  rewrite Hy. clearbody y. clear Hy Hx x.
  assert (Hall : forallb (fun y => Z.lor y 128 =? y mod 128 + 128)
                   (map Z.of_nat (seq 0 256)) = true) by (vm_compute; reflexivity).
  rewrite forallb_forall in Hall.
  apply Z.eqb_eq, Hall. apply in_map_iff. exists (Z.to_nat y).
  split; [lia|]. apply in_seq. lia.
Qed.

(** Shape of the canonical encoding: the last group is non-zero unless it is
    the only one. *)
Lemma put_uvarint_shape cap x :
  0 <= x < 2 ^ (7 * Z.of_nat cap) -> (0 < cap)%nat ->
  exists init lst, put_uvarint cap x = Ok (init ++ [lst]) /\
    Forall (fun b => 128 <= b < 256) init /\ 0 <= lst < 128 /\
    base128 (init ++ [lst]) = x /\ (length (init ++ [lst]) <= cap)%nat /\
    (init = [] \/ 0 < lst) /\ (x < 128 -> init = []).
Proof.
  revert x. induction cap as [|cap IH]; intros x Hx Hc; [lia|].
  cbn [put_uvarint]. destruct (Z.leb_spec 128 x) as [Hge|Hlt].
  - rewrite shiftr_7.
    assert (Hcap : (0 < cap)%nat).
    { destruct cap; [|lia]. change (2 ^ (7 * Z.of_nat 1)) with 128 in Hx. lia. }
    assert (Hpow : 2 ^ (7 * Z.of_nat (S cap)) = 128 * 2 ^ (7 * Z.of_nat cap)).
    { replace (7 * Z.of_nat (S cap)) with (7 + 7 * Z.of_nat cap) by lia.
      rewrite Z.pow_add_r by lia. reflexivity. }
    assert (Hx' : 0 <= x / 128 < 2 ^ (7 * Z.of_nat cap)).
    { split; [apply Z.div_pos; lia|]. apply Z.div_lt_upper_bound; lia. }
    destruct (IH (x / 128) Hx' Hcap) as (init & lst & Hp & Hin & Hl & Hv & Hlen & Hmin & Hsm).
    exists (Z.lor (u8 x) 128 :: init), lst. rewrite Hp. cbn [rbind app].
    rewrite lor_128 by lia.
    pose proof (Z.mod_pos_bound x 128 ltac:(lia)) as Hm.
    split_and!; try assumption; try reflexivity; try lia.
    + constructor; [lia|assumption].
    + cbn [base128]. rewrite Hv.
      replace (x mod 128 + 128) with (x mod 128 + 1 * 128) by lia.
      rewrite Z.mod_add, Z.mod_mod by lia.
      pose proof (Z.div_mod x 128 ltac:(lia)). lia.
    + cbn [length]. lia.
    + right. destruct Hmin as [->|Hpos]; [|assumption].
      cbn [app base128] in Hv. rewrite Z.mod_small in Hv by lia.
      pose proof (Z.div_le_lower_bound x 128 1 ltac:(lia) ltac:(lia)). lia.
  - exists [], x. cbn [app]. unfold u8. rewrite Z.mod_small by lia.
    split_and!; try reflexivity; try lia.
    + constructor.
    + cbn [base128]. rewrite Z.mod_small by lia. lia.
    + cbn [length]. lia.
    + left. reflexivity.
Qed.

Lemma base128_shortest init lst bs' :
  Forall (fun b => 128 <= b < 256) init -> 0 <= lst < 128 ->
  init = [] \/ 0 < lst -> bs' <> [] ->
  base128 bs' = base128 (init ++ [lst]) -> (length (init ++ [lst]) <= length bs')%nat.
Proof.
  intros Hin Hl Hmin Hne He.
  rewrite app_length. cbn [length].
  destruct Hmin as [->|Hpos].
  - destruct bs'; [congruence|cbn [length]; lia].
  - pose proof (base128_lt bs') as Hlt. rewrite He, base128_app in Hlt.
    cbn [base128] in Hlt. rewrite Z.mod_small in Hlt by lia.
    pose proof (base128_nonneg init) as Hn.
    assert (Hp : 0 < 2 ^ (7 * zlen init)) by (apply Z.pow_pos_nonneg; pose proof (zlen_nonneg init); lia).
    assert (Hc : 2 ^ (7 * zlen init) < 2 ^ (7 * zlen bs')) by nia.
    apply Z.pow_lt_mono_r_iff in Hc; [|lia|pose proof (zlen_nonneg bs'); lia].
    unfold zlen in Hc. lia.
Qed.

Lemma put_uvarint_minimal cap x :
  0 <= x < 2 ^ 64 -> x < 2 ^ (7 * Z.of_nat cap) -> (0 < cap <= 10)%nat ->
  exists bs, put_uvarint cap x = Ok bs /\ is_minimal_varint x bs.
Proof.
  intros Hx Hx' Hc.
  destruct (put_uvarint_shape cap x ltac:(lia) ltac:(lia))
    as (init & lst & Hp & Hin & Hl & Hv & Hlen & Hmin & _).
  exists (init ++ [lst]). split; [assumption|]. split.
  - exists init, lst. split_and!; try assumption; try reflexivity; lia.
  - intros bs' (init' & lst' & -> & Hin' & Hl' & Hlen' & Hv' & Hlt').
    apply base128_shortest; try assumption; [|congruence].
    intros He. apply (f_equal length) in He. rewrite app_length in He. cbn in He. lia.
Qed.

Lemma minimal_varint_length_unique v b1 b2 :
  is_minimal_varint v b1 -> is_minimal_varint v b2 -> length b1 = length b2.
Proof.
  intros [H1 M1] [H2 M2]. specialize (M1 _ H2). specialize (M2 _ H1). lia.
Qed.

(** Encodings of the same number with the same length are equal. *)
Lemma base128_inj_len l1 l2 :
  Forall is_byte l1 -> Forall is_byte l2 -> length l1 = length l2 ->
  Forall2 (fun a b => a < 128 <-> b < 128) l1 l2 ->
  base128 l1 = base128 l2 -> l1 = l2.
Proof.
  revert l2. induction l1 as [|a l1 IH]; intros [|b l2] H1 H2 Hlen Hc He; try discriminate; [reflexivity|].
  apply Forall_cons in H1 as [Ha H1]. apply Forall_cons in H2 as [Hb H2].
  apply Forall2_cons in Hc as [Hab Hc]. unfold is_byte in *.
  cbn [base128] in He. cbn [length] in Hlen.
  pose proof (Z.mod_pos_bound a 128 ltac:(lia)). pose proof (Z.mod_pos_bound b 128 ltac:(lia)).
  assert (Hm : a mod 128 = b mod 128 /\ base128 l1 = base128 l2) by lia.
  destruct Hm as [Hm Hrest].
  assert (a = b).
  { pose proof (Z.div_mod a 128 ltac:(lia)). pose proof (Z.div_mod b 128 ltac:(lia)).
    assert (a / 128 = b / 128); [|lia].
    destruct (Z.lt_ge_cases a 128).
    - rewrite !Z.div_small by lia. reflexivity.
    - assert (128 <= b) by lia.
      replace (a / 128) with 1 by (apply Z.div_unique with (a - 128); lia).
      apply Z.div_unique with (b - 128); lia. }
  subst b. f_equal. apply IH; try assumption; lia.
Qed.

Lemma is_varint_inj v b1 b2 :
  is_varint v b1 -> is_varint v b2 -> length b1 = length b2 -> b1 = b2.
Proof.
  intros H1 H2 Hlen.
  pose proof (is_varint_bytes _ _ H1) as B1. pose proof (is_varint_bytes _ _ H2) as B2.
  destruct H1 as (i1 & l1 & -> & F1 & L1 & _ & V1 & _).
  destruct H2 as (i2 & l2 & -> & F2 & L2 & _ & V2 & _).
  rewrite !app_length in Hlen. cbn [length] in Hlen.
  apply base128_inj_len; try assumption.
  - rewrite !app_length. cbn [length]. lia.
  - apply Forall2_app.
    + apply Forall2_same_length_lookup_2; [lia|]. intros i x y Hx Hy.
      rewrite Forall_lookup in F1, F2.
      specialize (F1 _ _ Hx). specialize (F2 _ _ Hy). cbn in *. lia.
    + repeat constructor; lia.
  - congruence.
Qed.

Lemma minimal_varint_unique v b1 b2 :
  is_minimal_varint v b1 -> is_minimal_varint v b2 -> b1 = b2.
Proof.
  intros H1 H2. eapply is_varint_inj; [apply H1|apply H2|].
  eapply minimal_varint_length_unique; eassumption.
Qed.

(** ** Little-endian *)
Lemma le32_spec b0 b1 b2 b3 r :
  is_byte b0 -> is_byte b1 -> is_byte b2 -> is_byte b3 ->
  le_uint32 (b0 :: b1 :: b2 :: b3 :: r) = Ok (base256 [b0; b1; b2; b3]).
Proof.
  unfold is_byte. intros H0 H1 H2 H3. cbn [le_uint32 base256].
  rewrite (lor_shiftl_add b0 b1 8) by (change (2 ^ 8) with 256; lia).
  rewrite (lor_shiftl_add _ b2 16) by (change (2 ^ 8) with 256; change (2 ^ 16) with 65536; lia).
  rewrite (lor_shiftl_add _ b3 24)
    by (change (2 ^ 8) with 256; change (2 ^ 16) with 65536; change (2 ^ 24) with 16777216; lia).
  f_equal. change (2 ^ 8) with 256; change (2 ^ 16) with 65536; change (2 ^ 24) with 16777216. lia.
Qed.

Ltac pows :=
  change (2 ^ 8) with 256 in *; change (2 ^ 16) with 65536 in *;
  change (2 ^ 24) with 16777216 in *; change (2 ^ 32) with 4294967296 in *;
  change (2 ^ 40) with 1099511627776 in *; change (2 ^ 48) with 281474976710656 in *;
  change (2 ^ 56) with 72057594037927936 in *;
  change (2 ^ 31) with 2147483648 in *;
  change (2 ^ 63) with 9223372036854775808 in *;
  change (2 ^ 64) with 18446744073709551616 in *.

Lemma le64_spec b0 b1 b2 b3 b4 b5 b6 b7 r :
  is_byte b0 -> is_byte b1 -> is_byte b2 -> is_byte b3 ->
  is_byte b4 -> is_byte b5 -> is_byte b6 -> is_byte b7 ->
  le_uint64 (b0 :: b1 :: b2 :: b3 :: b4 :: b5 :: b6 :: b7 :: r) =
    Ok (base256 [b0; b1; b2; b3; b4; b5; b6; b7]).
Proof.
  unfold is_byte. intros H0 H1 H2 H3 H4 H5 H6 H7. cbn [le_uint64 base256].
  rewrite (lor_shiftl_add b0 b1 8) by (pows; lia).
  rewrite (lor_shiftl_add _ b2 16) by (pows; lia).
  rewrite (lor_shiftl_add _ b3 24) by (pows; lia).
  rewrite (lor_shiftl_add _ b4 32) by (pows; lia).
  rewrite (lor_shiftl_add _ b5 40) by (pows; lia).
  rewrite (lor_shiftl_add _ b6 48) by (pows; lia).
  rewrite (lor_shiftl_add _ b7 56) by (pows; lia).
  f_equal. pows. lia.
Qed.

Lemma u8_byte x : is_byte (u8 x).
Proof. unfold is_byte, u8. apply Z.mod_pos_bound. lia. Qed.

Lemma put_le32_fixed v : 0 <= v < 2 ^ 32 -> is_fixed 4 v (put_le32 v).
Proof.
  intros Hv. unfold put_le32. split; [reflexivity|]. split.
  - repeat (constructor; [apply u8_byte|]). constructor.
  - cbn [base256]. rewrite !Z.shiftr_div_pow2 by lia. unfold u8. pows.
    Z.div_mod_to_equations. lia.
Qed.

Lemma div_mod_step x m : 0 < m -> x = x mod m + m * (x / m).
Proof. intros. pose proof (Z.div_mod x m). lia. Qed.

Lemma put_le64_fixed v : 0 <= v < 2 ^ 64 -> is_fixed 8 v (put_le64 v).
Proof.
  intros Hv. unfold put_le64. split; [reflexivity|]. split.
  - repeat (constructor; [apply u8_byte|]). constructor.
  - cbn [base256]. rewrite !Z.shiftr_div_pow2 by lia. unfold u8.
    assert (Hs : forall k, 0 <= k -> v / 2 ^ (k + 8) = (v / 2 ^ k) / 256).
    { intros k Hk. rewrite Z.pow_add_r by lia. change (2 ^ 8) with 256.
      rewrite Z.div_div; [reflexivity| |lia]. pose proof (Z.pow_pos_nonneg 2 k); lia. }
    pose proof (Hs 48 ltac:(lia)) as H7. pose proof (Hs 40 ltac:(lia)) as H6.
    pose proof (Hs 32 ltac:(lia)) as H5. pose proof (Hs 24 ltac:(lia)) as H4.
    pose proof (Hs 16 ltac:(lia)) as H3. pose proof (Hs 8 ltac:(lia)) as H2.
    clear Hs.
    change (48 + 8) with 56 in H7. change (40 + 8) with 48 in H6.
    change (32 + 8) with 40 in H5. change (24 + 8) with 32 in H4.
    change (16 + 8) with 24 in H3. change (8 + 8) with 16 in H2.
    rewrite H7, H6, H5, H4, H3, H2. change (2 ^ 8) with 256.
    pose proof (div_mod_step v 256 ltac:(lia)) as E0.
    set (v1 := v / 256) in *. pose proof (div_mod_step v1 256 ltac:(lia)) as E1.
    set (v2 := v1 / 256) in *. pose proof (div_mod_step v2 256 ltac:(lia)) as E2.
    set (v3 := v2 / 256) in *. pose proof (div_mod_step v3 256 ltac:(lia)) as E3.
    set (v4 := v3 / 256) in *. pose proof (div_mod_step v4 256 ltac:(lia)) as E4.
    set (v5 := v4 / 256) in *. pose proof (div_mod_step v5 256 ltac:(lia)) as E5.
    set (v6 := v5 / 256) in *. pose proof (div_mod_step v6 256 ltac:(lia)) as E6.
    set (v7 := v6 / 256) in *.
    assert (Hb : 0 <= v7 < 256).
    { subst v7 v6 v5 v4 v3 v2 v1. rewrite !Z.div_div by lia. split.
      - apply Z.div_pos; lia.
      - apply Z.div_lt_upper_bound; pows; lia. }
    rewrite (Z.mod_small v7) by lia.
    clearbody v1 v2 v3 v4 v5 v6 v7. clear H2 H3 H4 H5 H6 H7. lia.
Qed.

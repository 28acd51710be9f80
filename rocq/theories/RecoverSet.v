(** * Recovered panics: setters *)
From Verif Require Import VarintFacts RecFacts Heap HeapApi Core HeapFacts HeapSet HeapExec HeapAlloc HeapStable GetFacts ScanFacts FindFacts.
From Verif Require Import Spec SpecScan SpecFind SpecPos SpecMem Core6 ApiFacts OffsetsFacts PosFacts HeapEffect P_Find P_Pos P_Effect StretchFacts P_Beyond Demo.
From Verif Require Import SpecShare Share ShareFacts ShareArg ShareCore ShareRel ShareStep ShareSane SpecRecover Recover RecoverFacts.
From Coq Require Import ZifyBool.

Section Wreck.
Context (A : arrays) (σ : mem) (h : hmsg) (o : obj) (mt : mtype) (f : Z) (grow : policy).
Hypothesis (Hn : Z.of_nat (alen mt) <= 2 ^ 29) (Eon : o_n o = alen mt) (HA : A ⊆ arrs σ) (HG : good A) (Hbuf : o_buf o = h_buf h) (Hfit : fits A (h_buf h)) (Hwf : hwf σ h)
  (Hinv : pinv mt (2 ^ 60) (abs σ h) (state_of A o)) (Hshort : o_short o = true -> h_m h = None) (Hf : 0 <= f < Z.of_nat (alen mt)).
Local Notation s := (state_of A o).

Lemma wreck T v tb vl x w A' : in_type T v -> pval_size v < 2 ^ 60 ->
  put_uvarint MaxVarintLen64 (make_tag f (wire_type (wire_of T v))) = Ok tb -> pieces f (wire_of T v) tb vl x -> src_len w = zlen x ->
  set_wrecks A o f T v A' ->
  exists σ', r_setSingle grow σ h f (wire_type (wire_of T v)) vl w = (Panic, (σ', h)) /\ A' ⊆ arrs σ' /\ maps σ' = maps σ /\ same_sizes A A' /\ good A'.
Proof.
  intros Hin Hsz Hput Hpc Hw Hwr. destruct (start A σ h o mt Eon HA HG Hbuf Hfit Hwf Hinv Hshort) as (Hlen & Hsmall & Hbytes & Hcells & HWb & Hbb & HWl & Hlc).
  change (2 ^ 60) with 1152921504606846976 in Hsmall, Hsz.
  pose proof (pieces_canonical _ _ _ _ _ Hpc (in_type_bytes _ _ Hin)) as [Hcan1 Hcan2].
  pose proof (pinv_range _ _ _ _ _ Hinv Hf) as Hrng. pose proof Hinv as (_ & Howf & _ & _ & _ & Hpos).
  destruct (Hpos f Hf) as [Hof Hpf]. pose proof (offsets_get_eq (hoffs σ h) f Howf Hrng) as Hget. cbn [abs moff] in Hof.
  assert (Hold : forall p k, ppos s f = Some p -> p <= plen s -> occupies T (pbytes s) p k ->
    1 <= p /\ p <= 1152921504606846976 /\ old_len (sbytes σ (h_buf h)) p (wire_type (wire_of T v)) = Ok k /\ - 2 ^ 63 <= k < 2 ^ 63).
  { intros p k Hp Hpl Hk. specialize (Hpf p Hp). change (2 ^ 60) with 1152921504606846976 in Hpf.
    destruct (occupies_old_len mt T v _ _ s p k Hinv ltac:(vm_compute; reflexivity) Hin ltac:(lia) Hk) as [Hol Hkr]. cbn [abs mbuf] in Hol. split_and!; try assumption; lia. }
  assert (Hsum : zlen vl + src_len w = Z.of_nat (length (vl ++ x))) by (rewrite Hw, app_length; unfold zlen; lia).
  assert (Htl : 0 <= zlen tb) by (unfold zlen; lia).
  assert (Hsame : r_setSingle grow σ h f (wire_type (wire_of T v)) vl w = (Panic, (σ, h)) ->
    exists σ', r_setSingle grow σ h f (wire_type (wire_of T v)) vl w = (Panic, (σ', h)) /\ A ⊆ arrs σ' /\ maps σ' = maps σ /\ same_sizes A A /\ good A).
  { intros E. exists σ. split_and!; auto; apply sizes_refl. }
  destruct Hwr as [Hs|p k tb1 lb1 x1 b e s0 Hs Hpc1 Hp Hpl Hk Eb Ee Hbe Hroom]; [|subst s0].
  - apply Hsame. clear Hsame. unfold r_setSingle. rewrite Hput. cbn [attempt].
    inversion Hs as [| | | |p k tb1 db1 b e He Hp Hpl Hk Hne Eb Ee Hbe|p Hp Hpl]; rewrite Hof, Hp in Hget; rewrite Hget; cbn [attempt fst snd];
      pose proof (get_buf_some _ _ _ _ Hwf Hget) as Hnn; pose proof (proj1 Hwf) as Hsw; destruct (h_buf h) as [t|] eqn:Et; try done; cbn [hlen] in *.
    + destruct (enc_unique _ _ _ _ _ _ He Hcan1 Hcan2) as [<- <-].
      destruct (Hold p k Hp Hpl Hk) as (Hp1 & Hp2 & Hol & Hkr). rewrite Hol. cbn [attempt]. rewrite Hsum. replace (k =? _) with false by lia.
      fold (zlen tb) in Eb.
      assert (E1 : u64 (p + u64 k) = e mod 18446744073709551616) by (unfold u64; rewrite Zplus_mod_idemp_r, Ee; reflexivity).
      assert (E2 : u64 (p - u64 (zlen tb)) = b mod 18446744073709551616) by (unfold u64; rewrite Zminus_mod_idemp_r, Eb; reflexivity).
      rewrite E1, E2. revert Hkr. pows. intros Hkr.
      cbn [h_from]. destruct ((0 <=? e mod 18446744073709551616) && _) eqn:Es; [|reflexivity]. cbn [attempt].
      assert (He0 : 0 <= e <= slen t).
      { destruct (Z.lt_ge_cases e 0) as [Hneg|H0].
        - exfalso. assert (e mod 18446744073709551616 = e + 18446744073709551616); [|lia].
          replace e with (e + 18446744073709551616 + (-1) * 18446744073709551616) at 1 by lia. rewrite Z_mod_plus_full. apply Z.mod_small. lia.
        - rewrite Z.mod_small in Es by lia. lia. }
      assert (Hbneg : b < 0) by lia.
      assert (Htb10 : zlen tb <= 10) by (destruct Hcan1 as [_ Hm]; apply (minimal_small mt) in Hm as [Hm _]; unfold zlen; lia).
      assert (Ebm : b mod 18446744073709551616 = b + 18446744073709551616).
      { replace b with (b + 18446744073709551616 + (-1) * 18446744073709551616) at 1 by lia. rewrite Z_mod_plus_full. apply Z.mod_small. lia. }
      rewrite Ebm. unfold h_copy. cbn [h_from]. replace ((0 <=? b + 18446744073709551616) && (b + 18446744073709551616 <=? slen t)) with false by lia. reflexivity.
    + assert (Hsl : slice_from (sbytes σ (Some t)) p = Panic).
      { unfold slice_from. rewrite (sbytes_length σ _ Hsw). cbn [hlen]. replace ((0 <=? p) && (p <=? slen t)) with false by lia. reflexivity. }
      assert (Hcp : forall q, h_copy σ (Some t) p q = Panic) by (intros q; unfold h_copy; cbn [h_from]; replace ((0 <=? p) && (p <=? slen t)) with false by lia; reflexivity).
      assert (Hfx : (ptype_wire_type T = 1 -> zlen vl + src_len w = 8) /\ (ptype_wire_type T = 5 -> zlen vl + src_len w = 4)).
      { rewrite Hsum. rewrite <- (wire_type_of _ _ Hin). destruct (wire_of T v); cbn in Hcan2 |- *; (split; intros; try discriminate); destruct Hcan2 as (Hc & _); lia. }
      rewrite (wire_type_of _ _ Hin). unfold old_len.
      destruct T; cbn [ptype_wire_type] in *; cbn [Z.eqb Pos.eqb WireVarint WireFixed32 WireFixed64 WireBytes]; rewrite ?Hsl; cbn [rbind attempt]; try reflexivity;
        rewrite ?(proj1 Hfx eq_refl), ?(proj2 Hfx eq_refl); cbn [Z.eqb Pos.eqb]; rewrite Hcp; reflexivity.
  - clear Hsame. destruct (pieces_unique _ _ _ _ _ _ _ _ Hpc Hpc1) as (-> & -> & ->). rewrite Hof, Hp in Hget.
    destruct (Hold p k Hp Hpl Hk) as (Hp1 & Hp2 & Hol & Hkr).
    assert (Hne : k <> Z.of_nat (length (vl ++ x))).
    { inversion Hs as [| | |p' k' tb' db' b' e' He' Hp' Hpl' Hk' Hne' Eb' Ee' Hbe'| |]. assert (p' = p) as -> by congruence.
      destruct (enc_unique _ _ _ _ _ _ He' Hcan1 Hcan2) as [<- <-]. destruct (Hold p k' Hp Hpl Hk') as (_ & _ & Hol' & _). congruence. }
    pose proof (get_buf_some _ _ _ _ Hwf Hget) as Hnn. pose proof (proj1 Hwf) as Hsw. rewrite Hbuf in *. destruct (h_buf h) as [t|] eqn:Et; try done. cbn [hlen hcap] in *.
    fold (zlen tb) in Eb. 
    assert (E1 : u64 (p + u64 k) = e) by (unfold u64; rewrite Zplus_mod_idemp_r, <- Ee; apply Z.mod_small; lia).
    assert (E2 : u64 (p - u64 (zlen tb)) = b) by (unfold u64; rewrite Zminus_mod_idemp_r, <- Eb; apply Z.mod_small; lia).
    assert (Hfr : exists s1, h_from (Some t) e = Ok s1 /\ sbytes σ s1 = skipn (Z.to_nat e) (sbytes σ (Some t))).
    { pose proof (h_from_ok σ (Some t) e Hsw) as HH. unfold slice_from in HH. rewrite (sbytes_length σ _ Hsw) in HH. cbn [hlen] in HH.
      replace ((0 <=? e) && (e <=? slen t)) with true in HH by lia. destruct HH as (d1 & F1 & F2 & _). eauto. }
    destruct Hfr as (s1 & F1 & F2). set (y := skipn (Z.to_nat e) (sbytes σ (Some t))) in *.
    assert (Hy : zlen y = slen t - e).
    { unfold y, zlen. rewrite skipn_length. pose proof (sbytes_length σ _ Hsw) as Hsl. unfold zlen in Hsl. cbn [hlen] in Hsl. lia. }
    pose proof (h_copy_ok σ (Some t) b y Hsw) as Hcp. unfold copy_at in Hcp. rewrite (sbytes_length σ _ Hsw) in Hcp. cbn [hlen] in Hcp.
    replace ((0 <=? b) && (b <=? slen t)) with true in Hcp by lia. destruct Hcp as (σ1 & E5 & _ & Hm1 & _).
    destruct (copy_effect _ _ _ _ _ _ _ _ Hsw (effect_refl σ (Some t) Hsw) (window_len σ _ Hsw) E5) as (_ & _ & He1).
    assert (Etake : take (Z.to_nat (Z.min (slen t - b) (zlen y))) y = firstn (Z.to_nat (slen t - b)) y).
    { destruct (Z.le_gt_cases (slen t - b) (zlen y)); [f_equal; lia|]. rewrite !take_ge; [reflexivity|..]; unfold zlen in *; lia. }
    rewrite Etake in He1. rewrite <- put_overw in He1.
    exists σ1. split.
    { unfold r_setSingle. rewrite Hput. cbn [attempt]. rewrite Hget. cbn [attempt fst snd]. rewrite Et, Hol. cbn [attempt]. rewrite Hsum. replace (k =? _) with false by lia.
      rewrite E1, E2, F1. cbn [attempt]. rewrite F2, E5. cbn [attempt fst].
      assert (E3 : u64 (hlen (Some t) - u64 (e - b)) = slen t + (b - e)) by (unfold u64; rewrite Zminus_mod_idemp_r, Z.mod_small; cbn [hlen]; lia).
      rewrite E3. unfold h_range at 1. replace ((0 <=? 0) && (0 <=? slen t + (b - e)) && (slen t + (b - e) <=? scap t)) with false; [reflexivity|].
      rewrite Hcells in Hroom. lia. }
    rewrite Hlen, Hbytes, Hcells. fold y.
    assert (HWW : length (put (window σ (Some t)) (Z.to_nat b) (firstn (Z.to_nat (slen t - b)) y)) = length (cells A (Some t))).
    { rewrite Hcells, put_overw. apply overw_length. rewrite take_length. unfold zlen in *. lia. }
    split; [eapply effect_rewritten; eassumption|]. split; [exact Hm1|]. split; [apply rewritten_sizes; assumption|].
    apply rewritten_good; try assumption. apply put_bytes; [exact HWb|]. apply Forall_take. unfold y. rewrite <- Hbytes. apply Forall_drop, Hbb.
Qed.
End Wreck.

(** * Facts about the memory model *)
From Verif Require Import Heap Core.

(** ** Overwriting a part of a list *)
Definition overw (l : list Z) (p : nat) (b : list Z) : list Z :=
  take p l ++ b ++ drop (p + length b) l.

Lemma overw_length l p b : (p + length b <= length l)%nat -> length (overw l p b) = length l.
Proof. intros H. unfold overw. rewrite !app_length, take_length, drop_length. lia. Qed.

Lemma overw_lookup l p b i : (p + length b <= length l)%nat ->
  overw l p b !! i =
    if (p <=? i)%nat && (i <? p + length b)%nat then b !! (i - p)%nat else l !! i.
Proof.
  intros H. unfold overw.
  destruct (Nat.leb_spec p i); cbn [andb].
  - rewrite lookup_app_r by (rewrite take_length; lia).
    rewrite take_length, Nat.min_l by lia.
    destruct (Nat.ltb_spec i (p + length b)).
    + rewrite lookup_app_l by lia. done.
    + rewrite lookup_app_r by lia. rewrite lookup_drop. f_equal. lia.
  - rewrite lookup_app_l by (rewrite take_length; lia).
    apply lookup_take. lia.
Qed.

Lemma window_lookup (l : list Z) o n i :
  take n (drop o l) !! i = if (i <? n)%nat then l !! (o + i)%nat else None.
Proof.
  destruct (Nat.ltb_spec i n).
  - rewrite lookup_take by done. apply lookup_drop.
  - apply lookup_take_ge. done.
Qed.

Lemma window_overw l o n p b : (p + length b <= n)%nat -> (o + n <= length l)%nat ->
  take n (drop o (overw l (o + p) b)) = overw (take n (drop o l)) p b.
Proof.
  intros H1 H2. apply list_eq. intros i.
  rewrite window_lookup, overw_lookup by lia.
  rewrite overw_lookup by (rewrite take_length, drop_length; lia).
  rewrite window_lookup.
  destruct (Nat.ltb_spec i n).
  - destruct (Nat.leb_spec (o + p) (o + i)), (Nat.leb_spec p i); try lia; cbn [andb]; [|done].
    destruct (Nat.ltb_spec (o + i) (o + p + length b)), (Nat.ltb_spec i (p + length b)); try lia; [|done].
    f_equal. lia.
  - destruct (Nat.leb_spec p i), (Nat.ltb_spec i (p + length b)); cbn; done || lia.
Qed.

(** ** Slices *)
Lemma sbytes_length σ s : swf σ s -> zlen (sbytes σ s) = hlen s.
Proof.
  destruct s as [s|]; [|done]. intros (l & Hl & H1 & H2 & H3). cbn.
  unfold arr_of, zlen in *. rewrite Hl. cbn. rewrite take_length, drop_length. lia.
Qed.

Lemma hlen_nonneg σ s : swf σ s -> 0 <= hlen s.
Proof. intros H. rewrite <- (sbytes_length σ s H). unfold zlen. lia. Qed.

(** A window inside another. *)
Definition sub_window (d s : option slice) : Prop := forall a j, in_window d a j -> in_window s a j.
Lemma sub_refl s : sub_window s s. Proof. intros a j. done. Qed.
Lemma sub_trans a b c : sub_window a b -> sub_window b c -> sub_window a c.
Proof. intros H1 H2 x j. auto. Qed.

Lemma h_from_ok σ s i : swf σ s ->
  match slice_from (sbytes σ s) i with
  | Ok bs => exists d, h_from s i = Ok d /\ sbytes σ d = bs /\ swf σ d /\ sub_window d s /\
                       (is_Some s -> is_Some d) /\ (s = None -> i = 0)
  | Panic => h_from s i = Panic
  | _ => False
  end.
Proof.
  intros Hs. unfold slice_from. rewrite (sbytes_length σ s Hs).
  destruct s as [s|]; cbn [h_from hlen].
  - destruct (Z.leb_spec 0 i), (Z.leb_spec i (slen s)); cbn [andb]; try done.
    eexists. split; [done|]. destruct Hs as (l & Hl & H1 & H2 & H3).
    split_and!; try done.
    + cbn. unfold arr_of. rewrite Hl. cbn.
      rewrite skipn_firstn_comm, drop_drop. f_equal; [lia|]. f_equal. lia.
    + exists l. cbn. split_and!; try done; lia.
    + intros a j [-> Hj]. cbn in *. lia.

  - destruct (Z.leb_spec 0 i), (Z.leb_spec i 0), (Z.eqb_spec i 0); cbn [andb]; try lia; try done.
    eexists. split; [done|]. subst. split_and!; try done; apply sub_refl.
Qed.

Lemma h_range_ok σ s lo hi : swf σ s ->
  match slice_range (sbytes σ s) lo hi with
  | Ok bs => exists d, h_range s lo hi = Ok d /\ sbytes σ d = bs /\ swf σ d /\ sub_window d s /\
                       (is_Some s -> is_Some d) /\ (s = None -> lo = 0)
  | Panic => h_range s lo hi = Panic
  | PastLen => True
  | _ => False
  end.
Proof.
  intros Hs. unfold slice_range. rewrite (sbytes_length σ s Hs).
  destruct s as [s|]; cbn [h_range hlen].
  - destruct Hs as (l & Hl & H1 & H2 & H3).
    destruct (Z.leb_spec 0 lo), (Z.leb_spec lo hi); cbn [andb]; try done.
    destruct (Z.leb_spec hi (slen s)); [|done].
    destruct (Z.leb_spec hi (scap s)); [|lia].
    eexists. split; [done|].
    split_and!; try done.
    + cbn. unfold arr_of. rewrite Hl. cbn.
      rewrite skipn_firstn_comm, drop_drop, take_take. f_equal; [lia|]. f_equal. lia.
    + exists l. cbn. split_and!; try done; lia.
    + intros a j [-> Hj]. cbn in *. lia.

  - destruct (Z.leb_spec 0 lo), (Z.leb_spec lo hi); cbn [andb]; try done.
    + destruct (Z.leb_spec hi 0); [|done].
      replace lo with 0 by lia. replace hi with 0 by lia. cbn.
      eexists. split; [done|]. split_and!; try done; apply sub_refl.
    + destruct (Z.eqb_spec lo 0), (Z.eqb_spec hi 0); cbn; try done; lia.
    + destruct (Z.eqb_spec lo 0), (Z.eqb_spec hi 0); cbn; try done; lia.
    + destruct (Z.eqb_spec lo 0), (Z.eqb_spec hi 0); cbn; try done; lia.
Qed.

(** Whatever the bounds, a slice of a slice stays in its window. *)
Lemma h_from_sub σ s i d : swf σ s -> h_from s i = Ok d -> swf σ d /\ sub_window d s.
Proof.
  intros Hs. destruct s as [s|]; cbn.
  - destruct Hs as (l & Hl & H1 & H2 & H3).
    destruct (Z.leb_spec 0 i), (Z.leb_spec i (slen s)); cbn [andb]; intros [= <-].
    split; [exists l; cbn; split_and!; done || lia|]. intros a j [-> Hj]. cbn in *. lia.
  - destruct (Z.eqb_spec i 0); intros [= <-]. split; [done|apply sub_refl].
Qed.
Lemma h_range_sub σ s lo hi d : swf σ s -> h_range s lo hi = Ok d ->
  swf σ d /\ sub_window d s /\ (is_Some d <-> is_Some s).
Proof.
  intros Hs. destruct s as [s|]; cbn.
  - destruct Hs as (l & Hl & H1 & H2 & H3).
    destruct (Z.leb_spec 0 lo), (Z.leb_spec lo hi), (Z.leb_spec hi (scap s)); cbn [andb]; intros [= <-].
    split_and!; [exists l; cbn; split_and!; done || lia| |split; eauto].
    intros a j [-> Hj]. cbn in *. lia.
  - destruct (Z.eqb_spec lo 0), (Z.eqb_spec hi 0); cbn; intros [= <-].
    split_and!; [done|apply sub_refl|done].
Qed.

(** ** Frames *)
Lemma only_refl σ P Q : only_changes σ σ P Q.
Proof. split_and!; eauto. Qed.

Lemma only_weaken σ σ' (P P' : nat -> Z -> Prop) (Q Q' : nat -> Prop) : only_changes σ σ' P Q ->
  (forall a j, is_Some (arrs σ !! a) -> P a j -> P' a j) -> (forall k, Q k -> Q' k) ->
  only_changes σ σ' P' Q'.
Proof.
  intros (H1 & H2 & H3 & H4) HP HQ. split_and!; try done.
  - intros a j Ha Hn. apply H2; [done|]. intros Hp. apply Hn. apply HP; done.
  - intros k m Hk Hn. apply H3; [done|]. auto.
Qed.

Lemma only_trans σ σ1 σ2 P Q P1 Q1 :
  only_changes σ σ1 P Q -> only_changes σ1 σ2 P1 Q1 ->
  (forall a j, P1 a j -> P a j \/ arrs σ !! a = None) ->
  (forall k, Q1 k -> Q k \/ maps σ !! k = None) ->
  only_changes σ σ2 P Q.
Proof.
  intros (A1 & A2 & A3 & A4) (B1 & B2 & B3 & B4) HP HQ. split_and!.
  - intros a l Ha. destruct (A1 a l Ha) as (l1 & Hl1 & E1).
    destruct (B1 a l1 Hl1) as (l2 & Hl2 & E2). exists l2. split; [done|congruence].
  - intros a j [l Ha] Hn. destruct (A1 a l Ha) as (l1 & Hl1 & E1).
    rewrite B2; [apply A2; eauto|eauto|].
    intros Hp. destruct (HP a j Hp); [done|congruence].
  - intros k m Hk Hn. apply B3; [apply A3; done|].
    intros Hq. destruct (HQ k Hq); [done|congruence].
  - intros k Hk. apply B4, A4, Hk.
Qed.

Lemma swf_frame σ σ' P Q s : only_changes σ σ' P Q -> swf σ s -> swf σ' s.
Proof.
  intros (H1 & _) Hs. destruct s as [s|]; [|done].
  destruct Hs as (l & Hl & Hrest). destruct (H1 _ _ Hl) as (l' & Hl' & E).
  exists l'. split; [done|]. unfold zlen in *. rewrite E. done.
Qed.

Lemma in_bytes_window σ s a j : swf σ s -> in_bytes s a j -> in_window s a j.
Proof. destruct s as [s|]; [|done]. intros (l & _ & H1 & H2 & H3) [-> H]. cbn. lia. Qed.

Lemma sbytes_frame σ σ' P Q s : only_changes σ σ' P Q -> swf σ s ->
  (forall a j, in_bytes s a j -> ~ P a j) -> sbytes σ' s = sbytes σ s.
Proof.
  intros (H1 & H2 & _) Hs Hn. destruct s as [s|]; [|done]. cbn.
  destruct Hs as (l & Hl & Ho & Hc & Hw). destruct (H1 _ _ Hl) as (l' & Hl' & E).
  apply list_eq. intros i. rewrite !window_lookup.
  destruct (Nat.ltb_spec i (Z.to_nat (slen s))); [|done].
  assert (Hcell : cell σ' (sarr s) (soff s + Z.of_nat i) = cell σ (sarr s) (soff s + Z.of_nat i)).
  { apply H2; [eauto|]. apply Hn. cbn. lia. }
  unfold cell in Hcell. destruct (Z.leb_spec 0 (soff s + Z.of_nat i)); [|lia].
  rewrite Z2Nat.inj_add, Nat2Z.id in Hcell by lia. done.
Qed.

Lemma arr_of_write σ a pos bs b :
  arr_of (write σ a pos bs) b =
    if decide (a = b) then overw (arr_of σ a) (Z.to_nat pos) bs else arr_of σ b.
Proof.
  unfold arr_of, write. cbn. destruct (decide (a = b)) as [->|].
  - rewrite lookup_insert. done.
  - rewrite lookup_insert_ne by done. done.
Qed.

Lemma write_frame σ a pos bs : 0 <= pos -> pos + zlen bs <= zlen (arr_of σ a) ->
  only_changes σ (write σ a pos bs) (fun b j => b = a /\ pos <= j < pos + zlen bs) (fun _ => False).
Proof.
  intros H1 H2. unfold zlen in *. split_and!.
  - intros b l Hb. destruct (decide (a = b)) as [->|].
    + unfold write; cbn. rewrite lookup_insert. eexists. split; [done|].
      unfold arr_of in *. rewrite Hb in *. cbn in *.
      change (length (overw l (Z.to_nat pos) bs) = length l). apply overw_length. lia.
    + unfold write; cbn. rewrite lookup_insert_ne by done. eauto.
  - intros b j Hb Hn. unfold cell. destruct (Z.leb_spec 0 j); [|done].
    rewrite arr_of_write. destruct (decide (a = b)) as [->|]; [|done].
    rewrite overw_lookup by lia.
    destruct (Nat.leb_spec (Z.to_nat pos) (Z.to_nat j)), (Nat.ltb_spec (Z.to_nat j) (Z.to_nat pos + length bs)); cbn [andb]; try done.
    exfalso. apply Hn. split; [done|]. lia.
  - intros k m Hk _. done.
  - done.
Qed.

(** ** copy *)
Lemma h_copy_ok σ s i src : swf σ s ->
  match copy_at (sbytes σ s) i src with
  | Ok (bs, n) => exists σ', h_copy σ s i src = Ok (σ', n) /\ sbytes σ' s = bs /\ maps σ' = maps σ /\
                             only_changes σ σ' (in_bytes s) (fun _ => False)
  | Panic => h_copy σ s i src = Panic
  | _ => False
  end.
Proof.
  intros Hs. unfold copy_at, h_copy. rewrite (sbytes_length σ s Hs).
  destruct s as [s|]; cbn [h_from hlen rbind].
  - destruct (Z.leb_spec 0 i), (Z.leb_spec i (slen s)); cbn [andb rbind]; try done.
    destruct Hs as (l & Hl & H1 & H2 & H3). cbn [slen sarr soff].
    eexists. split; [done|].
    set (n := Z.min (slen s - i) (zlen src)).
    assert (Hn : 0 <= n <= slen s - i /\ n <= zlen src) by (unfold n, zlen in *; lia).
    assert (Hlen : length (take (Z.to_nat n) src) = Z.to_nat n) by (rewrite take_length; unfold zlen in *; lia).
    split_and!.
    + cbn. rewrite arr_of_write, decide_True by done.
      replace (Z.to_nat (soff s + i)) with (Z.to_nat (soff s) + Z.to_nat i)%nat by lia.
      unfold arr_of. rewrite Hl. cbn.
      rewrite window_overw by (unfold zlen in *; lia).
      unfold overw. rewrite Hlen. repeat f_equal. lia.
    + done.
    + eapply only_weaken; [apply write_frame| |done].
      * lia.
      * unfold arr_of. rewrite Hl. cbn. unfold zlen in *. lia.
      * intros a j _ [-> Hj]. cbn. unfold zlen in Hj. lia.
  - destruct (Z.leb_spec 0 i), (Z.leb_spec i 0), (Z.eqb_spec i 0); cbn [andb rbind]; try lia; try done.
    eexists. subst. rewrite Z.min_l by (unfold zlen; lia). split; [done|].
    split_and!; [|done|apply only_refl]. rewrite take_0. done.
Qed.

Lemma h_copy_frame σ s i src σ' n : swf σ s -> h_copy σ s i src = Ok (σ', n) ->
  maps σ' = maps σ /\ only_changes σ σ' (in_bytes s) (fun _ => False).
Proof.
  intros Hs E. pose proof (h_copy_ok σ s i src Hs) as H.
  destruct (copy_at (sbytes σ s) i src) as [[bs m]| | |]; try (congruence || done).
  destruct H as (σ2 & E2 & _ & Hm & Ho). rewrite E in E2. injection E2 as <- <-. done.
Qed.

(** ** append *)
Lemma alloc_fresh σ : arrs σ !! pick (pick_array (chooser σ)) (dom (arrs σ)) = None.
Proof. apply not_elem_of_dom. apply pick_fresh. Qed.

Lemma alloc_frame σ bs e σ' s : alloc σ bs e = (σ', s) ->
  only_changes σ σ' (fun _ _ => False) (fun _ => False) /\ maps σ' = maps σ /\
  swf σ' (Some s) /\ sbytes σ' (Some s) = bs /\ arrs σ !! sarr s = None.
Proof.
  unfold alloc. intros [= <- <-]. pose proof (alloc_fresh σ) as Hf.
  split_and!; try done.
  - split_and!; cbn; [| |done|done].
    + intros a l Ha. rewrite lookup_insert_ne by congruence. eauto.
    + intros a j [l Ha] _. unfold cell, arr_of; cbn. rewrite lookup_insert_ne by congruence. done.
  - eexists. cbn. rewrite lookup_insert. split; [done|]. unfold zlen. rewrite app_length, replicate_length. lia.
  - cbn. unfold arr_of, zlen; cbn. rewrite lookup_insert. cbn. rewrite Nat2Z.id. apply take_app.
Qed.

Lemma h_append_ok grow σ s bs σ' s' : swf σ s -> h_append grow σ s bs = (σ', s') ->
  sbytes σ' s' = sbytes σ s ++ bs /\ swf σ' s' /\ maps σ' = maps σ /\
  hlen s' = hlen s + zlen bs /\
  only_changes σ σ' (in_spare s) (fun _ => False) /\
  (forall a j, in_window s' a j -> in_window s a j \/ arrs σ !! a = None) /\
  (forall a j, in_spare s' a j -> in_spare s a j \/ arrs σ !! a = None) /\
  (s' = None -> s = None /\ bs = []).
Proof.
  intros Hs. unfold h_append. destruct (Z.leb_spec (hlen s + zlen bs) (match s with None => 0 | Some s => scap s end)) as [Hc|Hc].
  - destruct s as [s|]; intros [= <- <-].
    + pose proof Hs as (l & Hl & H1 & H2 & H3). cbn [hlen] in *.
      assert (Hz : zlen bs >= 0) by (unfold zlen; lia).
      assert (Hf : only_changes σ (write σ (sarr s) (soff s + slen s) bs) (in_spare (Some s)) (fun _ => False)).
      { eapply only_weaken; [apply write_frame| |done].
        - lia.
        - unfold arr_of. rewrite Hl. cbn. lia.
        - intros a j _ [-> Hj]. cbn. lia. }
      split_and!; try done.
      * cbn. rewrite arr_of_write, decide_True by done.
        unfold arr_of. rewrite Hl. cbn. apply list_eq. intros i.
        rewrite window_lookup, overw_lookup by (unfold zlen in *; lia).
        assert (Hlen : length (take (Z.to_nat (slen s)) (drop (Z.to_nat (soff s)) l)) = Z.to_nat (slen s))
          by (rewrite take_length, drop_length; unfold zlen in *; lia).
        destruct (Nat.ltb_spec i (Z.to_nat (slen s + zlen bs))).
        -- destruct (Nat.leb_spec (Z.to_nat (soff s + slen s)) (Z.to_nat (soff s) + i)); cbn [andb].
           ++ rewrite lookup_app_r by lia. rewrite Hlen.
              destruct (Nat.ltb_spec (Z.to_nat (soff s) + i) (Z.to_nat (soff s + slen s) + length bs)); [|unfold zlen in *; lia].
              f_equal. lia.
           ++ rewrite lookup_app_l by lia. rewrite window_lookup.
              destruct (Nat.ltb_spec i (Z.to_nat (slen s))); [done|lia].
        -- symmetry. apply lookup_ge_None. rewrite app_length, Hlen. unfold zlen in *. lia.
      * eapply swf_frame; [apply Hf|]. exists l. cbn. split_and!; done || lia.
      * intros a j [-> Hj]. left. cbn in *. lia.
      * intros a j [-> Hj]. left. cbn in *. lia.
    + cbn [hlen] in Hc. assert (bs = []) as -> by (destruct bs; [done|unfold zlen in Hc; cbn in Hc; lia]).
      split_and!; try done. apply only_refl.
  - destruct (alloc _ _ _) as [σ1 s1] eqn:E. intros [= <- <-].
    destruct (alloc_frame _ _ _ _ _ E) as (Hf & Hm & Hw & Hb & Hfr).
    split_and!; try done.
    + unfold alloc in E. injection E as _ <-. cbn. unfold zlen. rewrite app_length.
      pose proof (sbytes_length σ s Hs) as HL. unfold zlen in HL. lia.
    + eapply only_weaken; [apply Hf|done|done].
    + intros a j [-> _]. right. done.
    + intros a j [-> _]. right. done.
Qed.

(** * Property C74: what a call that reaches beyond the message reads *)
From Verif Require Import VarintFacts RecFacts Heap HeapApi Core HeapFacts HeapSet HeapExec HeapAlloc HeapStable GetFacts ScanFacts FindFacts.
From Verif Require Import Spec SpecScan SpecFind SpecPos SpecMem Core6 ApiFacts OffsetsFacts PosFacts HeapEffect P_Find P_Pos P_Effect StretchFacts Demo.
From Coq Require Import ZifyBool.

Lemma reads_app b v n r : reads_varint b v n -> reads_varint (b ++ r) v n.
Proof.
  intros [v' vb r' H|init lst r' H1 H2 H3]; rewrite <- app_assoc; cbn [app]; [apply reads_fits|apply reads_overlong]; assumption.
Qed.

Lemma window_from σ t i : swf σ (Some t) -> 0 <= i <= slen t -> window σ (Some t) = sbytes σ (Some t) ++ skipn (Z.to_nat (slen t)) (window σ (Some t)).
Proof. intros Hs Hi. rewrite (window_bytes _ _ Hs). cbn [hlen]. symmetry. apply firstn_skipn. Qed.

Lemma range_bytes σ t lo hi : swf σ (Some t) -> 0 <= lo <= hi -> hi <= scap t ->
  exists d, h_range (Some t) lo hi = Ok (Some d) /\ sbytes σ (Some d) = firstn (Z.to_nat (hi - lo)) (at_pos (window σ (Some t)) lo) /\
    sarr d = sarr t /\ soff d = soff t + lo /\ slen d = hi - lo.
Proof.
  intros (l & Hl & H1 & H2 & H3) Hlo Hhi. unfold h_range. replace ((0 <=? lo) && (lo <=? hi) && (hi <=? scap t)) with true by lia.
  eexists. split; [reflexivity|]. cbn [sarr soff slen sbytes window]. split; [|auto]. unfold arr_of. rewrite Hl. unfold default, id.
  apply list_eq. intros i. destruct (Nat.lt_ge_cases i (Z.to_nat (hi - lo))) as [Hi|Hi].
  - rewrite !lookup_take by lia. rewrite !lookup_drop. rewrite lookup_take by lia. rewrite lookup_drop. f_equal. lia.
  - rewrite !lookup_take_ge by lia. reflexivity.
Qed.

Lemma range_out t lo hi : scap t < hi -> h_range (Some t) lo hi = Panic.
Proof. intros H. unfold h_range. replace (hi <=? scap t) with false by lia. rewrite andb_false_r. reflexivity. Qed.

Lemma get_in_sound mt M σ h s T f :
  pinv mt M (abs σ h) s -> hwf σ h -> 0 <= f < Z.of_nat (alen mt) -> M < 2 ^ 62 ->
  Forall is_byte (window σ (h_buf h)) -> Z.of_nat (length (window σ (h_buf h))) < 2 ^ 62 ->
  (exists r, gets_in T s (window σ (h_buf h)) f r) /\
  forall r, gets_in T s (window σ (h_buf h)) f r ->
    match r with
    | Some v => exists x, h_get T σ h f = Ok x /\ hval_of σ x = v
    | None => h_get T σ h f = Panic
    end.
Proof.
  intros Hinv Hwf Hf HM HWb HWl.
  destruct (get_sound mt _ _ s f T Hinv HM Hf) as [[g Hg] Hall].
  pose proof (h_get_refines T σ h f Hwf) as Href.
  pose proof (pinv_range _ _ _ _ _ Hinv Hf) as Hr. pose proof Hinv as (Ht & Howf & _ & Hb & Hl & Hpos).
  destruct (Hpos f Hf) as [Hof Hpf]. cbn [abs moff] in Hof, Howf, Hr.
  destruct (buf_len mt _ σ h s Hinv Hwf) as [Hlen Hbytes].
  assert (Hbey : gets T s f Beyond -> exists p, ppos s f = Some p /\
    ((exists v x, obtains T (window σ (h_buf h)) p (Value v) /\ h_get T σ h f = Ok x /\ hval_of σ x = v) \/
     (obtains T (window σ (h_buf h)) p Beyond /\ h_get T σ h f = Panic))).
  { clear Hg Hall Href. pose proof (proj1 Hwf) as Hs. intros Hbey.
    assert (Hnn : exists p, ppos s f = Some p) by (inversion Hbey; eauto). destruct Hnn as [p Hp]. exists p. split; [exact Hp|].
    pose proof (Hpf p Hp) as Hp1. rewrite Hp in Hof.
    assert (Hnz : h_buf h <> None).
    { pose proof (offsets_get_eq (hoffs σ h) f Howf Hr) as Hget. rewrite Hof in Hget. exact (get_buf_some _ _ _ _ Hwf Hget). }
    destruct (h_buf h) as [t|] eqn:Eb; [|done]. pose proof (window_len _ _ Hs) as HWc. cbn [hcap hlen] in *. unfold zlen in HWc.
    assert (Hfix : forall k, k = 4 \/ k = 8 -> plen s < p + k ->
      (scap t < p + k /\ h_range (Some t) p (u64 (p + k)) = Panic) \/
      (p + k <= scap t /\ exists d, h_range (Some t) p (u64 (p + k)) = Ok (Some d) /\ sbytes σ (Some d) = firstn (Z.to_nat k) (at_pos (window σ (Some t)) p))).
    { intros k Hk Hpk. change (2 ^ 62) with 4611686018427387904 in *. rewrite u64_small by (pows; lia). destruct (Z.lt_ge_cases (scap t) (p + k)) as [H|H]; [left|right]; (split; [exact H|]).
      - apply range_out, H.
      - destruct (range_bytes σ t p (p + k) Hs ltac:(lia) H) as (d & E1 & E2 & _). exists d. split; [exact E1|]. rewrite E2. do 2 f_equal. lia. }
    assert (Hby : forall k, Forall is_byte (firstn k (at_pos (window σ (Some t)) p))) by (intros k; apply Forall_take, Forall_drop, HWb).
    assert (Hfl : forall k, p + k <= scap t -> 0 <= k -> length (firstn (Z.to_nat k) (at_pos (window σ (Some t)) p)) = Z.to_nat k).
    { intros k H1 H2. rewrite firstn_length, skipn_length. lia. }
    assert (H64 : ptype_wire_type T = 1 -> plen s < p + 8 ->
      (exists v x, obtains T (window σ (Some t)) p (Value v) /\ h_get T σ h f = Ok x /\ hval_of σ x = v) \/ (obtains T (window σ (Some t)) p Beyond /\ h_get T σ h f = Panic)).
    { intros HT Hlt. destruct (Hfix 8 ltac:(auto) Hlt) as [[Hc E]|(Hc & d & E & Ed)]; [right; split; [apply beyond_fixed64; [assumption|lia]|]|left; exists (value_of T (WFixed64 (base256 (firstn 8 (at_pos (window σ (Some t)) p))))); eexists (HVal _); split; [apply obtains_fixed64; [assumption|lia]|split; [|reflexivity]]].
      - destruct T; try discriminate; cbn [h_get]; unfold fixed_at; rewrite (with_offset_some _ _ _ _ _ Howf Hr Hof), Eb, E; reflexivity.
      - specialize (Hfl 8 Hc ltac:(lia)). change (Z.to_nat 8) with 8%nat in *.
        assert (Hfx : is_fixed 8 (base256 (firstn 8 (at_pos (window σ (Some t)) p))) (firstn 8 (at_pos (window σ (Some t)) p))) by (split_and!; [exact Hfl|apply Hby|reflexivity]).
        apply fixed8 in Hfx.
        destruct T; try discriminate; cbn [h_get value_of]; unfold fixed_at; rewrite (with_offset_some _ _ _ _ _ Howf Hr Hof), Eb, E; cbn [rbind]; rewrite Ed, Hfx; cbn [rbind]; rewrite ?i64_signed; reflexivity. }
    assert (H32 : ptype_wire_type T = 5 -> plen s < p + 4 ->
      (exists v x, obtains T (window σ (Some t)) p (Value v) /\ h_get T σ h f = Ok x /\ hval_of σ x = v) \/ (obtains T (window σ (Some t)) p Beyond /\ h_get T σ h f = Panic)).
    { clear H64. intros HT Hlt. destruct (Hfix 4 ltac:(auto) Hlt) as [[Hc E]|(Hc & d & E & Ed)]; [right; split; [apply beyond_fixed32; [assumption|lia]|]|left; exists (value_of T (WFixed32 (base256 (firstn 4 (at_pos (window σ (Some t)) p))))); eexists (HVal _); split; [apply obtains_fixed32; [assumption|lia]|split; [|reflexivity]]].
      - destruct T; try discriminate; cbn [h_get]; unfold fixed_at; rewrite (with_offset_some _ _ _ _ _ Howf Hr Hof), Eb, E; reflexivity.
      - specialize (Hfl 4 Hc ltac:(lia)). change (Z.to_nat 4) with 4%nat in *.
        assert (Hfx : is_fixed 4 (base256 (firstn 4 (at_pos (window σ (Some t)) p))) (firstn 4 (at_pos (window σ (Some t)) p))) by (split_and!; [exact Hfl|apply Hby|reflexivity]).
        apply fixed4 in Hfx.
        destruct T; try discriminate; cbn [h_get value_of]; unfold fixed_at; rewrite (with_offset_some _ _ _ _ _ Howf Hr Hof), Eb, E; cbn [rbind]; rewrite Ed, Hfx; cbn [rbind]; rewrite ?i32_signed; reflexivity. }
    inversion Hbey as [|p' g' Hp' Hpl Ho|p' Hp' Hpl HT|p' Hp' Hpl HT].
    - rewrite Hp in Hp'. injection Hp' as <-. inversion Ho as [| | | HT Hlt | HT Hlt | | len n lo hi HT Hv Hlo Hhi Hle Hgt |].
      + apply H64; [exact HT|unfold plen; lia].
      + apply H32; [exact HT|unfold plen; lia].
      + clear H64 H32 Hfix. assert (Hpr : 0 <= p <= slen t) by lia.
        assert (Hrd : reads_varint (at_pos (pbytes s) p) len n).
        { destruct Hv as [Hv|(_ & -> & ->)]; [exact Hv|]. exfalso. change (2 ^ 62) with 4611686018427387904 in *. rewrite Z.add_0_r, Z.mod_small in Hlo by (pows; unfold plen in *; lia). subst lo. rewrite Z.add_0_r, Z.mod_small in Hhi by (pows; unfold plen in *; lia).
          subst hi. unfold plen in *. lia. }
        assert (Hat : at_pos (window σ (Some t)) p = at_pos (pbytes s) p ++ skipn (Z.to_nat (slen t)) (window σ (Some t))).
        { rewrite (window_from σ t p Hs Hpr) at 1. rewrite Hbytes. rewrite skipn_app. f_equal. replace (Z.to_nat p - length (pbytes s))%nat with 0%nat by (unfold plen in *; lia). reflexivity. }
        assert (Hv2 : SpecScan.varint_at (at_pos (window σ (Some t)) p) len n) by (left; rewrite Hat; apply reads_app, Hrd).
        assert (Hu : uvarint (at_pos (pbytes s) p) = (len, n)) by (apply varint_at_uvarint; [apply Forall_drop, Hb|exact Hv]).
        assert (Hlo0 : 0 <= lo) by (rewrite Hlo; apply Z.mod_pos_bound; pows; lia).
        assert (Efrom : exists d, h_from (Some t) p = Ok (Some d) /\ sbytes σ (Some d) = at_pos (pbytes s) p).
        { pose proof (h_from_ok σ (Some t) p Hs) as HH. rewrite Hbytes in HH. unfold slice_from, zlen in HH. replace ((0 <=? p) && (p <=? _)) with true in HH by (unfold plen in *; lia).
          destruct HH as (d & E1 & E2 & _ & _ & Hd & _). destruct d as [d|]; [eauto|]. destruct Hd as [? [=]]; eauto. }
        destruct Efrom as (d & Ef & Ed).
        assert (Elo : u64 (p + u64 n) = lo) by (rewrite Hlo; unfold u64; pows; apply Zplus_mod_idemp_r).
        assert (Ehi : u64 (lo + len) = hi) by (rewrite Hhi; reflexivity).
        destruct (Z.lt_ge_cases (scap t) hi) as [Hc|Hc]; [right|left].
        * split; [eapply beyond_bytes; try eassumption; lia|].
          destruct T; try discriminate; cbn [h_get]; unfold slice_at; rewrite (with_offset_some _ _ _ _ _ Howf Hr Hof), Eb, Ef; cbn [rbind]; rewrite Ed, Hu; cbv zeta; rewrite Elo, Ehi, range_out by exact Hc; reflexivity.
        * destruct (range_bytes σ t lo hi Hs ltac:(lia) Hc) as (d2 & E1 & E2 & _).
          eexists _, (match T with PString => HStr (Some d2) | _ => HBy (Some d2) end). split; [eapply obtains_bytes; try eassumption; lia|].
          destruct T; try discriminate; cbn [h_get]; unfold slice_at; rewrite (with_offset_some _ _ _ _ _ Howf Hr Hof), Eb, Ef; cbn [rbind]; rewrite Ed, Hu; cbv zeta; rewrite Elo, Ehi, E1; cbn [rbind default]; (split; [reflexivity|]); cbn [default]; unfold default, id; cbn [hval_of value_of]; rewrite E2; reflexivity.
    - rewrite Hp in Hp'. injection Hp' as <-. destruct HT as [HT|HT]; [apply H64|apply H32]; try exact HT; lia. }
  split.
  - destruct g as [v| |]; [exists (Some v); apply gets_inside, Hg| |exists None; apply gets_fault, Hg].
    destruct (Hbey Hg) as (p & Hp & [(v & x & H1 & _)|[H1 _]]); eexists; [eapply gets_behind|eapply gets_nothing]; eassumption.
  - intros r [v Hv|Hv|p v Hv Hp Ho|p Hv Hp Ho].
    + rewrite (Hall _ Hv) in Href. exact Href.
    + rewrite (Hall _ Hv) in Href. exact Href.
    + destruct (Hbey Hv) as (p' & Hp' & [(v' & x & H1 & H2)|[H1 _]]); rewrite Hp in Hp'; injection Hp' as <-; pose proof (obtains_det _ _ _ _ _ HWb Ho H1) as E; [injection E as ->; eauto|discriminate].
    + destruct (Hbey Hv) as (p' & Hp' & [(v' & x & H1 & H2)|[H1 H2]]); rewrite Hp in Hp'; injection Hp' as <-; pose proof (obtains_det _ _ _ _ _ HWb Ho H1) as E; [discriminate|exact H2].
Qed.

(** A getter on a struct reached by any history over any bytes, in any memory:
    it always is one of the cases of [gets_in], and does what that says. *)
Theorem C74_get mt cs σ h s T f :
  reached mt cs σ h s -> 0 <= f < Z.of_nat (alen mt) -> mutations_size cs < 2 ^ 62 ->
  Forall is_byte (window σ (h_buf h)) -> Z.of_nat (length (window σ (h_buf h))) < 2 ^ 62 ->
  (exists r, gets_in T s (window σ (h_buf h)) f r) /\
  forall r, gets_in T s (window σ (h_buf h)) f r ->
    match r with
    | Some v => exists x, h_get T σ h f = Ok x /\ hval_of σ x = v
    | None => h_get T σ h f = Panic
    end.
Proof.
  intros HR Hf HM. eapply get_in_sound; [eapply reached_inv; eassumption|apply HR|exact Hf|exact HM].
Qed.

Lemma stretch_sound grow mt M σ h s f T v :
  Z.of_nat (alen mt) <= 2 ^ 29 -> pinv mt M (abs σ h) s -> hwf σ h -> 0 <= f < Z.of_nat (alen mt) -> in_type T v ->
  2 * M + mutation_size (PSet f T v) < 2 ^ 62 ->
  Forall is_byte (window σ (h_buf h)) ->
  sets T f v s OBeyond ->
  (exists r, stretches T f v s (window σ (h_buf h)) r) /\
  forall r, stretches T f v s (window σ (h_buf h)) r ->
    match r with
    | None => h_set grow T σ h f v = Panic
    | Some s' =>
      (forall g q, 0 <= g < Z.of_nat (alen mt) -> ppos s' g = Some q -> q < 65535) ->
      exists σ' h', h_set grow T σ h f v = Ok (σ', h') /\ pinv mt (2 * M + mutation_size (PSet f T v)) (abs σ' h') s' /\ hwf σ' h'
    end.
Proof.
  intros Hn Hinv Hwf Hf Hin HM HWb Hset.
  assert (Hvs : 0 <= pval_size v) by (destruct v as [|?|?|[?|]]; cbn; lia).
  assert (Hcs : 0 <= M) by (destruct Hinv as (_ & _ & _ & _ & Hl & _); unfold plen in Hl; lia).
  assert (HMz : 2 * M + (20 + pval_size v) < 4611686018427387904) by exact HM.
  assert (HM1 : M < 2 ^ 62) by (change (2 ^ 62) with 4611686018427387904; lia).
  destruct (buf_len mt _ σ h s Hinv Hwf) as [Hlen Hbytes]. pose proof (buf_cap mt _ σ h s Hinv Hwf) as Hcap.
  pose proof (pinv_range _ _ _ _ _ Hinv Hf) as Hr. pose proof Hinv as (Ht & Howf & _ & Hb & Hl & Hpos).
  destruct (Hpos f Hf) as [Hof Hpf]. pose proof (offsets_get_eq (hoffs σ h) f Howf Hr) as Hget. cbn [abs moff] in Hof, Howf. rewrite Hof in Hget.
  destruct (tag_bytes mt Hn f (wire_of T v) Hf) as (tb0 & Hput & Htag).
  destruct (set_args_pieces f T v tb0 Hin) as (vl & x0 & Ea & Hpc0); [pows; lia|exact Htag|].
  pose proof (window_len σ _ (proj1 Hwf)) as HWl.
  assert (Htb : tb0 <> []). { destruct Htag as [_ Hm]. apply (minimal_small mt) in Hm as [Hm _]. intros E. rewrite E in Hm. cbn in Hm. lia. }
  split.
  - inversion Hset as [| | |p k tb db b e He Hp Hpl Hk Hne Eb Ee Hbe| |].
    destruct He as [Ht1 _]. assert (tb = tb0) as -> by (destruct Ht1 as [_ Ht1], Htag as [_ Htag']; eapply minimal_varint_unique; eassumption).
    destruct (Z.le_gt_cases (plen s + (b - e)) (Z.of_nat (length (window σ (h_buf h))))); eexists; [eapply stretch_done|eapply stretch_no_room]; try eassumption; reflexivity.
  - intros r Hst.
    assert (Hcom : forall p k tb lb x b e, pieces f (wire_of T v) tb lb x -> ppos s f = Some p -> p <= plen s -> occupies T (pbytes s) p k ->
      b = p - Z.of_nat (length tb) -> e = p + k -> 0 <= e < b ->
      tb = tb0 /\ lb = vl /\ x = x0 /\ 1 <= p <= M /\ old_len (sbytes σ (h_buf h)) p (wire_type (wire_of T v)) = Ok k).
    { intros p k tb lb x b e Hpc Hp Hpl Hk Eb Ee Hbe. destruct (pieces_unique _ _ _ _ _ _ _ _ Hpc0 Hpc) as (-> & -> & ->). split_and!; try reflexivity; try (apply Hpf in Hp; lia).
      pose proof (Hpf _ Hp). destruct (occupies_old_len mt T v _ _ s p _ Hinv HM1 Hin ltac:(lia) Hk) as [Hol _]. exact Hol. }
    destruct Hst as [p k tb lb x b e d Hpc Hp Hpl Hk Eb Ee Hbe Ed Hroom|p k tb lb x b e Hpc Hp Hpl Hk Eb Ee Hbe Hroom];
      destruct (Hcom _ _ _ _ _ _ _ Hpc Hp Hpl Hk Eb Ee Hbe) as (-> & -> & -> & Hp1 & Hol); rewrite Hp in Hget.
    + intros Hfit. set (W := window σ (h_buf h)) in *. set (db := vl ++ x0) in *.
      assert (Hsz : Z.of_nat (length db) <= 10 + pval_size v).
      { destruct (m_set_unfold T (pbytes s) (hoffs σ h) f v Hin ltac:(pows; lia)) as (vl' & x' & _ & Hcan & Hs').
        destruct (pieces_canonical _ _ _ _ _ Hpc0 (in_type_bytes T v Hin)) as [_ Hcan0].
        unfold db. rewrite (canonical_payload_unique _ _ _ Hcan0 Hcan). exact Hs'. }
      pose proof (pieces_canonical _ _ _ _ _ Hpc0 (in_type_bytes T v Hin)) as Henc. fold db in Henc.
      pose proof (proj1 (minimal_small mt _ _ (proj2 Htag))) as Htl.
      assert (Hd : 0 < d <= p) by lia.
      assert (Hadj : forall g q, ofun (hoffs σ h) g = Some q -> q < 65535 /\ (e < q -> q + d < 65535)).
      { intros g q Hq.
        assert (Hg : 0 <= g < Z.of_nat (alen mt)).
        { rewrite ofun_cell in Hq. destruct (Z.leb_spec 0 g) as [Hg|]; [|discriminate].
          destruct (oa (hoffs σ h) !! Z.to_nat g) as [y|] eqn:Ey; [|discriminate]. apply lookup_lt_Some in Ey.
          pose proof (of_type_zlen _ _ Ht) as Hz. cbn [abs moff] in Hz. unfold zlen in Hz. lia. }
        pose proof (proj1 (Hpos g Hg)) as Hg2. cbn [abs moff] in Hg2. rewrite Hq in Hg2. symmetry in Hg2.
        pose proof (Hfit g) as HF. cbn [ppos] in HF. unfold pset in HF. destruct (decide (g = f)) as [->|Hgf].
        - rewrite Hp in Hg2. injection Hg2 as <-. specialize (HF _ Hg eq_refl). lia.
        - rewrite Hg2 in HF. cbn [option_map] in HF. specialize (HF _ Hg eq_refl). destruct (Z.ltb_spec e q); lia. }
      assert (Hd2 : d < 65535).
      { rewrite Hp in Hof. specialize (Hadj _ _ Hof). lia. }
      destruct (adjust_up (hoffs σ h) e d Howf ltac:(lia) ltac:(lia) Hadj) as (Ho1 & Hwf1 & Hl1 & Hof1).
      set (o1 := mkOffsets (adjust_array (oa (hoffs σ h)) e (u64 (- d))) (om (hoffs σ h))) in *.
      set (b2 := firstn (Z.to_nat (plen s + d)) (put W (Z.to_nat b) (firstn (Z.to_nat (plen s - b)) (skipn (Z.to_nat e) (pbytes s))))) in *.
      set (s1 := mkP b2 (fun g => option_map (fun q => if e <? q then q + d else q) (ppos s g))).
      assert (Hfl : length (firstn (Z.to_nat (plen s - b)) (skipn (Z.to_nat e) (pbytes s))) = Z.to_nat (plen s - b)).
      { rewrite firstn_length, skipn_length. unfold plen. lia. }
      assert (Hb2l : plen s1 = plen s + d).
      { unfold plen at 1, s1. cbn [pbytes]. unfold b2. rewrite firstn_length, put_overw, overw_length by (rewrite Hfl; unfold plen in *; lia). unfold plen in *. lia. }
      assert (Hinv1 : pinv mt (2 * M) (mkMsg b2 o1) s1).
      { unfold pinv. cbn [mbuf moff]. split_and!.
        - unfold of_type in *. cbn [moff abs] in *. unfold zlen in Hl1. lia.
        - exact Hwf1.
        - reflexivity.
        - unfold s1. cbn [pbytes]. unfold b2, put. apply Forall_take. rewrite !Forall_app. split_and!; [apply Forall_take, HWb|apply Forall_take, Forall_drop, Hb|apply Forall_drop, HWb].
        - rewrite Hb2l. lia.
        - intros g Hg. destruct (Hpos g Hg) as [G1 G2]. cbn [abs moff] in G1. unfold s1. cbn [ppos]. rewrite Hof1, G1. split; [reflexivity|].
          intros q. destruct (ppos s g) as [q0|]; [|discriminate]. cbn [option_map]. intros [= <-]. specialize (G2 _ eq_refl). destruct (Z.ltb_spec e q0); lia. }
      destruct (add_record mt (2 * M) (mkMsg b2 o1) s1 f (wire_of T v) tb0 db _ Hinv1 Hf Henc eq_refl ltac:(pows; change (2 ^ 62) with 4611686018427387904; lia)) as (o' & Ho' & Hinv2).
      cbn [mbuf moff] in *. rewrite Hb2l in Hinv2.
      destruct (stretch_effect grow σ h f (wire_type (wire_of T v)) vl (Scratch x0) p k tb0 b e d Hwf I Hput Htb Hget ltac:(lia) ltac:(change (2 ^ 62) with 4611686018427387904; lia) Hol Eb Ee Hbe Ed) as [_ G].
      rewrite Hlen, Hbytes in G. unfold zlen in HWl.
      destruct (G ltac:(fold W in HWl; lia) Ho1 o' Ho') as (σ' & h' & E1 & E2 & E3). cbn [src_bytes] in E2.
      exists σ', h'. split; [unfold h_set; rewrite Ea; cbn [rbind]; exact E1|].
      split; [|exact E3]. rewrite E2. destruct Hinv2 as (G1 & G2 & G3 & G4 & G5 & G6). cbn [mutation_size].
      unfold pinv. split_and!; [exact G1|exact G2|exact G3|exact G4|etransitivity; [exact G5|lia]|]. intros g Hg. destruct (G6 g Hg) as [G7 G8]. split; [exact G7|]. intros q Hq. specialize (G8 q Hq). lia.
    + unfold h_set. rewrite Ea. cbn [rbind].
      destruct (stretch_effect grow σ h f _ vl (Scratch x0) p k tb0 b e (b - e) Hwf I Hput Htb Hget ltac:(lia) ltac:(pows; change (2 ^ 62) with 4611686018427387904; lia) Hol Eb Ee Hbe eq_refl) as [G _].
      apply G. unfold zlen in HWl. lia.
Qed.

(** A setter that stretches the message.  If there is room, the cells behind the
    message become part of it, and the bytes Encode returns and all getters are as
    said (as long as all positions fit the array of 16-bit offsets; C63 shows what
    happens otherwise); if not, it panics. *)
Theorem C74_stretch grow mt cs σ h s f T v :
  reached mt cs σ h s -> 0 <= f < Z.of_nat (alen mt) -> in_type T v ->
  2 * mutations_size cs + mutation_size (PSet f T v) < 2 ^ 62 ->
  Forall is_byte (window σ (h_buf h)) ->
  sets T f v s OBeyond ->
  (exists r, stretches T f v s (window σ (h_buf h)) r) /\
  forall r, stretches T f v s (window σ (h_buf h)) r ->
    match r with
    | None => h_set grow T σ h f v = Panic
    | Some s' =>
      (forall g q, 0 <= g < Z.of_nat (alen mt) -> ppos s' g = Some q -> q < 65535) ->
      exists σ' h', h_set grow T σ h f v = Ok (σ', h') /\ sbytes σ' (h_buf h') = pbytes s' /\
        (Forall is_byte (window σ' (h_buf h')) -> Z.of_nat (length (window σ' (h_buf h'))) < 2 ^ 62 ->
         forall T' g o, 0 <= g < Z.of_nat (alen mt) -> gets_in T' s' (window σ' (h_buf h')) g o ->
           match o with
           | Some x => exists y, h_get T' σ' h' g = Ok y /\ hval_of σ' y = x
           | None => h_get T' σ' h' g = Panic
           end)
    end.
Proof.
  intros HR Hf Hin HM HWb Hset.
  assert (Hvs : 0 <= pval_size v) by (destruct v as [|?|?|[?|]]; cbn; lia).
  assert (Hcs : 0 <= mutations_size cs) by (clear; induction cs as [|c cs IH]; cbn [mutations_size foldr]; [lia|]; fold (mutations_size cs); destruct c as [? ? u|? ?|?|?]; cbn [mutation_size]; try lia; destruct u as [|?|?|[?|]]; cbn; lia).
  assert (HMz : 2 * mutations_size cs + (20 + pval_size v) < 4611686018427387904) by exact HM.
  assert (HM1 : mutations_size cs < 2 ^ 62) by (change (2 ^ 62) with 4611686018427387904; lia).
  pose proof (reached_inv _ _ _ _ _ HR HM1) as Hinv. destruct HR as (Hn & _ & Hwf & _).
  destruct (stretch_sound grow mt _ σ h s f T v Hn Hinv Hwf Hf Hin HM HWb Hset) as [H1 H2]. split; [exact H1|].
  intros [s'|] Hr; specialize (H2 _ Hr); [|exact H2]. intros Hfit. destruct (H2 Hfit) as (σ' & h' & E1 & Hinv' & Hwf').
  exists σ', h'. split; [exact E1|]. split; [exact (proj1 (proj2 (proj2 Hinv')))|].
  intros HWb' HWl' T' g o Hg Hgo. destruct (get_in_sound mt _ σ' h' _ T' g Hinv' Hwf' Hg HM HWb' HWl') as [_ HG]. exact (HG _ Hgo).
Qed.

(** A call of Next on any iterator in memory: the element it delivers (and the
    iterator it leaves) is determined even where the element reaches beyond the
    message. *)
Theorem C74_next σ t field :
  swf σ (Some t) -> Forall is_byte (window σ (Some t)) -> Z.of_nat (length (window σ (Some t))) < 2 ^ 62 ->
  (exists r, next_in field (sbytes σ (Some t)) (window σ (Some t)) r) /\
  forall r, next_in field (sbytes σ (Some t)) (window σ (Some t)) r ->
    match r with
    | More x rest => exists t' d, h_find σ (Some t) field = Ok (Some t', Some d) /\ sbytes σ (Some t') = rest /\ sbytes σ (Some d) = x
    | Last x => exists d, h_find σ (Some t) field = Ok (None, Some d) /\ sbytes σ (Some d) = x
    | NBeyond => False
    | NFault => h_find σ (Some t) field = Panic
    | NLoops => h_find σ (Some t) field = OutOfFuel
    end.
Proof.
  intros Hs HWb HWl. set (b := sbytes σ (Some t)). set (W := window σ (Some t)) in *.
  assert (HW : W = b ++ skipn (Z.to_nat (slen t)) W) by (apply (window_from σ t 0 Hs); destruct Hs as (l & _ & _ & H & _); lia).
  assert (Hb : Forall is_byte b) by (rewrite HW in HWb; apply Forall_app in HWb; apply HWb).
  pose proof (sbytes_length σ _ Hs) as Hbl. pose proof (window_len σ _ Hs) as HWc. fold b in Hbl. fold W in HWc. unfold zlen in *. cbn [hlen hcap] in *.
  assert (Hcap : slen t <= scap t) by (destruct Hs as (l & _ & _ & H & _); lia).
  change (2 ^ 62) with 4611686018427387904 in HWl.
  destruct (C71_find_next field b Hb) as (r & Hr & Hdet & Hres); [change (2 ^ 62) with 4611686018427387904; lia|].
  pose proof (h_find_refines σ (Some t) field Hs) as Href. cbn [vit find_fuel] in Href. fold b in Href.
  rewrite Hres in Href by (right; unfold fuel_of; lia).
  assert (Hbey : element_beyond b -> (exists x hi d, element W x hi /\ h_find σ (Some t) field = Ok (None, Some d) /\ sbytes σ (Some d) = x) \/
     (element_beyond W /\ h_find σ (Some t) field = Panic)).
  { intros (len & n & hi & Hv & Hhi & Hn & Hlt).
    assert (Hrd : reads_varint b len n).
    { destruct Hv as [Hv|(_ & -> & ->)]; [exact Hv|]. exfalso. change (signed64 (0 + 0)) with 0 in Hhi. lia. }
    assert (HvW : SpecScan.varint_at W len n) by (left; rewrite HW; apply reads_app, Hrd).
    assert (Hu : uvarint b = (len, n)) by (apply varint_at_uvarint; assumption).
    assert (Ehi : i64 (n + i64 len) = hi) by (rewrite Hhi, i64_add; reflexivity).
    destruct (Z.lt_ge_cases (scap t) hi) as [Hc|Hc]; [right|left].
    - split; [exists len, n, hi; split_and!; auto; lia|]. unfold h_find. fold b. rewrite Hu. cbv zeta. rewrite Ehi, range_out by exact Hc. reflexivity.
    - destruct (range_bytes σ t n hi Hs Hn Hc) as (d & E1 & E2 & _). fold W in E2.
      exists (firstn (Z.to_nat (hi - n)) (at_pos W n)), hi, d. split; [eapply element_is; try eassumption; lia|]. split; [|exact E2].
      unfold h_find. fold b. rewrite Hu. cbv zeta. rewrite Ehi, E1. cbn [rbind].
      destruct (fuel_of b) as [|k] eqn:Ek; [discriminate|]. cbn [find_pos]. replace (hi <? zlen b) with false by (unfold zlen; lia). reflexivity. }
  assert (Hnb : next field b NBeyond -> element_beyond b) by (intros H; inversion H; assumption).
  assert (Hel1 : forall x hi x' hi', element W x hi -> element W x' hi' -> x' = x).
  { intros x hi x' hi' [len n h1 A1 A2 A3 A4] [len' n' h2 B1 B2 B3 B4]. destruct (varint_at_det W _ _ _ _ HWb A1 B1) as [<- <-]. subst. reflexivity. }
  assert (Hel2 : forall x hi, element W x hi -> element_beyond W -> False).
  { intros x hi [len n h1 A1 A2 A3 A4] (len' & n' & h2 & B1 & B2 & B3 & B4). destruct (varint_at_det W _ _ _ _ HWb A1 B1) as [<- <-]. subst. lia. }
  split.
  - destruct r as [x rest|x| | |]; try (eexists; apply next_inside; [exact Hr|discriminate]).
    destruct (Hbey (Hnb Hr)) as [(x & hi & d & H1 & _)|[H1 _]]; eexists; [eapply next_behind; eassumption|eapply next_nothing; eassumption].
  - intros r' [r2 Hr2 Hne|x hi Hr2 Hel|Hr2 Hel].
    + rewrite (Hdet _ Hr2). rewrite (Hdet _ Hr2) in Hne. destruct r as [x rest|x| | |]; try done.
      * destruct Href as ([t' d] & E & H1 & _ & H2 & _). cbn [fst snd] in *.
        destruct t' as [t'|]; [|discriminate]. destruct d as [d|]; [|discriminate]. injection H1 as H1. injection H2 as H2. eauto.
      * destruct Href as ([t' d] & E & H1 & _ & H2 & _). cbn [fst snd] in *.
        destruct t' as [t'|]; [discriminate|]. destruct d as [d|]; [|discriminate]. injection H2 as H2. eauto.
    + destruct (Hbey (Hnb Hr2)) as [(x' & hi' & d & H1 & H2 & H3)|[H1 _]].
      * exists d. split; [exact H2|]. rewrite H3. eapply Hel1; eassumption.
      * exfalso. eapply Hel2; eassumption.
    + destruct (Hbey (Hnb Hr2)) as [(x' & hi' & d & H1 & H2 & H3)|[_ H1]]; [|exact H1]. exfalso. eapply Hel2; eassumption.
Qed.

(** Case: the three bytes [18; 5; 104] (a string of five bytes, cut) are decoded
    from a slice with room for eight: Decode reports the error, and the accessor
    returns the first byte of the string and four bytes of what lies behind the
    message; with room for six it panics.  The same bytes behind a tag, as an iterator. *)
Definition bey_arr : list Z := [18; 5; 104; 201; 202; 203; 204; 205].
Definition bey_mem (c : Z) : mem := (match h_decode pos_mt (mkMem {[ 0%nat := bey_arr ]} ∅) (mkH None (replicate 5 0) None) (Some (mkSl 0 0 3 c)) with Ok (_, σ, _) => σ | _ => mkMem ∅ ∅ end).
Definition bey_h (c : Z) : hmsg := (match h_decode pos_mt (mkMem {[ 0%nat := bey_arr ]} ∅) (mkH None (replicate 5 0) None) (Some (mkSl 0 0 3 c)) with Ok (_, _, h) => h | _ => mkH None [] None end).
Definition bey_s : pstate := mkP [18; 5; 104] (fun f => recorded [4] f [(2, 1)] None).
Lemma bey_reads v r : 0 <= v < 128 -> reads_varint (v :: r) v 1.
Proof. intros Hv. apply (reads_fits v [v] r). apply small_varint, Hv. Qed.
Lemma bey_reached c : 3 <= c <= 8 -> reached pos_mt [PDecode [18; 5; 104]] (bey_mem c) (bey_h c) bey_s.
Proof.
  intros Hc. split; [cbn; lia|]. split; [repeat constructor; unfold is_byte; lia|]. split.
  { split; [|split].
    - cbn. exists bey_arr. split; [reflexivity|]. unfold zlen. cbn. lia.
    - exact I.
    - discriminate. }
  split.
  - eapply mutates_more; [|apply mutates_none]. cbn [mutates].
    apply (decodes_part _ _ _ [(2, 1)] 7 []).
    + eapply walk_cons; [|cbn; lia|apply walk_nil]. exists 18, 6. split.
      { split; [cbn; lia|]. exists 1. split; [apply bey_reads; lia|cbn; lia]. }
      split; [lia|]. split; [reflexivity|]. split; [|split; [vm_compute; discriminate|reflexivity]].
      change 6 with (1 + 5). apply moves_bytes. apply bey_reads. lia.
    + apply early_beyond. cbn. lia.
  - vm_compute. reflexivity.
Qed.
Example C74_case :
  reached pos_mt [PDecode [18; 5; 104]] (bey_mem 8) (bey_h 8) bey_s /\
  gets_in PString bey_s (window (bey_mem 8) (h_buf (bey_h 8))) 2 (Some (VString [104; 201; 202; 203; 204])) /\
  gets_in PString bey_s (window (bey_mem 6) (h_buf (bey_h 6))) 2 None /\
  next_in 2 [5; 104] [5; 104; 201; 202; 203; 204; 205] (Last [104; 201; 202; 203; 204]) /\
  next_in 2 [5; 104] [5; 104; 201; 202; 203] NFault.
Proof.
  split; [apply bey_reached; lia|].
  assert (Hg : gets PString bey_s 2 Beyond).
  { apply (gets_found PString bey_s 2 1); [reflexivity|vm_compute; discriminate|].
    apply (beyond_bytes PString _ _ 5 1 2 7); [reflexivity|left; apply bey_reads; lia|reflexivity|reflexivity|lia|cbn; lia]. }
  assert (Hn : next 2 [5; 104] NBeyond).
  { apply next_beyond. exists 5, 1, 6. split; [left; apply bey_reads; lia|]. split; [reflexivity|]. cbn. lia. }
  split; [|split; [|split]].
  - apply (gets_behind PString bey_s _ 2 1); [exact Hg|reflexivity|].
    change (window (bey_mem 8) (h_buf (bey_h 8))) with bey_arr.
    apply (obtains_bytes PString bey_arr 1 5 1 2 7); [reflexivity|left; apply bey_reads; lia|reflexivity|reflexivity|cbn; lia].
  - apply (gets_nothing PString bey_s _ 2 1); [exact Hg|reflexivity|].
    change (window (bey_mem 6) (h_buf (bey_h 6))) with (firstn 6 bey_arr).
    apply (beyond_bytes PString _ _ 5 1 2 7); [reflexivity|left; apply bey_reads; lia|reflexivity|reflexivity|lia|cbn; lia].
  - apply (next_behind 2 _ _ [104; 201; 202; 203; 204] 6); [exact Hn|].
    apply (element_is [5; 104; 201; 202; 203; 204; 205] 5 1 6); [left; apply bey_reads; lia|reflexivity|lia|cbn; lia].
  - apply next_nothing; [exact Hn|]. exists 5, 1, 6. split; [left; apply bey_reads; lia|]. split; [reflexivity|]. cbn. lia.
Qed.

(** Case of a stretching setter: the first call of P_Pos.v's [stretch], decoded
    from a slice with twelve spare cells.  The setter of field 1 with the value 7
    makes ten of them part of the message; with nine it panics. *)
Definition str_bytes : list Z := [26; 8; 0; 0; 0; 0; 0; 0; 0; 0; 9] ++ [128; 128; 128; 128; 128; 128; 128; 128; 144; 128; 0; 5].
Definition str_arr : list Z := str_bytes ++ [201; 202; 203; 204; 205; 206; 207; 208; 209; 210; 211; 212].
Definition str_run (c : Z) := h_decode pos_mt (mkMem {[ 0%nat := str_arr ]} ∅) (mkH None (replicate 5 0) None) (Some (mkSl 0 0 23 c)).
Definition str_mem (c : Z) : mem := match str_run c with Ok (_, σ, _) => σ | _ => mkMem ∅ ∅ end.
Definition str_h (c : Z) : hmsg := match str_run c with Ok (_, _, h) => h | _ => mkH None [] None end.
Lemma str_reached c : 23 <= c <= 35 -> exists s, reached pos_mt [PDecode str_bytes] (str_mem c) (str_h c) s.
Proof.
  intros Hc. assert (Hok : Forall (mutation_ok (Z.of_nat (alen pos_mt))) [PDecode str_bytes]) by (repeat constructor; cbn; lia).
  destruct (run_sound pos_mt ltac:(cbn; lia) [PDecode str_bytes] 0 (msg_zero pos_mt) pempty (pinv_zero pos_mt) Hok ltac:(vm_compute; reflexivity)) as [[r Hr] Hs].
  specialize (Hs _ Hr).
  assert (E : p_run pos_mt (msg_zero pos_mt) [PDecode str_bytes] = Ok (abs (str_mem c) (str_h c))) by (vm_compute; reflexivity).
  rewrite E in Hs. destruct r as [s| | |]; [|discriminate..]. exists s. split; [cbn; lia|]. split; [exact Hok|]. split.
  { split; [|split].
    - cbn. exists str_arr. split; [reflexivity|]. unfold zlen. cbn. lia.
    - exact I.
    - discriminate. }
  split; [exact Hr|exact E].
Qed.
Example C74_stretch_case : forall grow, exists s,
  reached pos_mt [PDecode str_bytes] (str_mem 35) (str_h 35) s /\
  sets PUint64 1 (VNum 7) s OBeyond /\
  (exists s', stretches PUint64 1 (VNum 7) s (window (str_mem 35) (h_buf (str_h 35))) (Some s') /\
    pbytes s' = firstn 10 str_arr ++ firstn 13 str_arr ++ [201; 202; 203; 204; 205; 206; 207; 208; 209; 210] ++ [8; 7] /\
    (forall g q, 0 <= g < 5 -> ppos s' g = Some q -> q < 65535) /\
    exists σ' h', h_set grow PUint64 (str_mem 35) (str_h 35) 1 (VNum 7) = Ok (σ', h') /\ sbytes σ' (h_buf h') = pbytes s') /\
  h_set grow PUint64 (str_mem 32) (str_h 32) 1 (VNum 7) = Panic.
Proof.
  intros grow. destruct (str_reached 35 ltac:(lia)) as [s Hs]. exists s. split; [exact Hs|].
  pose proof (reached_inv _ _ _ _ _ Hs ltac:(vm_compute; reflexivity)) as Hinv. pose proof Hinv as (_ & _ & Hb & _ & Hl & Hpos).
  assert (Eb : pbytes s = str_bytes) by (rewrite <- Hb; vm_compute; reflexivity).
  assert (Ep : forall g, 0 <= g < 5 -> ppos s g = ofun (moff (abs (str_mem 35) (str_h 35))) g) by (intros g Hg; symmetry; apply Hpos; exact Hg).
  assert (Hp1 : ppos s 1 = Some 11) by (rewrite Ep by lia; vm_compute; reflexivity).
  assert (Hpl : plen s = 23) by (unfold plen; rewrite Eb; reflexivity).
  assert (Hpc : pieces 1 (wire_of PUint64 (VNum 7)) [8] [] [7]).
  { apply pieces_other; [split; [cbn; lia|apply small_varint; cbn; lia]|cbn; lia|apply small_varint; lia]. }
  assert (Hocc : occupies PUint64 (pbytes s) 11 (-11)).
  { rewrite Eb. apply (occupies_varint PUint64 _ _ 0 (-11)); [reflexivity|]. left.
    apply (reads_overlong [128; 128; 128; 128; 128; 128; 128; 128; 144; 128] 0 [5]); [repeat constructor; lia|lia|left; cbn; lia]. }
  assert (Hset : sets PUint64 1 (VNum 7) s OBeyond).
  { eapply (set_stretches PUint64 1 (VNum 7) s 11 (-11) [8] [7] 10 0); [split; [split; [cbn; lia|apply small_varint; cbn; lia]|apply small_varint; lia]|exact Hp1|lia|exact Hocc|cbn; lia|reflexivity|reflexivity|lia]. }
  split; [exact Hset|].
  assert (HW : window (str_mem 35) (h_buf (str_h 35)) = str_arr) by (vm_compute; reflexivity).
  assert (HWb : Forall is_byte str_arr) by (unfold str_arr, str_bytes; cbn [app]; repeat (constructor; [unfold is_byte; lia|]); constructor).
  assert (Hfit : forall g q, 0 <= g < 5 -> ppos s g = Some q -> q <= 23).
  { intros g q Hg Hq. rewrite (Ep g Hg) in Hq. assert (g = 0 \/ g = 1 \/ g = 2 \/ g = 3 \/ g = 4) as Hcases by lia; destruct Hcases as [ -> |[ -> |[ -> |[ -> | -> ]]]];
      vm_compute in Hq; first [discriminate|injection Hq as <-; lia]. }
  split; [|vm_compute; reflexivity].
  destruct (C74_stretch grow pos_mt [PDecode str_bytes] (str_mem 35) (str_h 35) s 1 PUint64 (VNum 7) Hs ltac:(cbn; lia) ltac:(cbn; lia) ltac:(vm_compute; reflexivity) ltac:(rewrite HW; exact HWb) Hset) as [_ HS].
  rewrite HW in *.
  assert (Hst : stretches PUint64 1 (VNum 7) s str_arr (Some (mkP
      (firstn (Z.to_nat (plen s + 10)) (put str_arr (Z.to_nat 10) (firstn (Z.to_nat (plen s - 10)) (skipn (Z.to_nat 0) (pbytes s)))) ++ [8] ++ [] ++ [7])
      (pset (fun g => option_map (fun q => if 0 <? q then q + 10 else q) (ppos s g)) 1 (plen s + 10 + 1))))).
  { apply (stretch_done PUint64 1 (VNum 7) s str_arr 11 (-11) [8] [] [7] 10 0 10 Hpc Hp1); [lia|exact Hocc|reflexivity|reflexivity|lia|reflexivity|rewrite Hpl; vm_compute; discriminate]. }
  eexists. split; [exact Hst|]. specialize (HS _ Hst). cbn beta iota in HS. cbn [pbytes ppos] in *.
  assert (HF : forall g q, 0 <= g < 5 -> pset (fun g => option_map (fun q => if 0 <? q then q + 10 else q) (ppos s g)) 1 (plen s + 10 + 1) g = Some q -> q < 65535).
  { intros g q Hg. unfold pset. destruct (decide (g = 1)); [intros [= <-]; lia|]. destruct (ppos s g) as [q0|] eqn:Eq; [|discriminate]. apply Hfit in Eq; [|exact Hg].
    cbn. intros [= <-]. destruct (0 <? q0); lia. }
  split; [rewrite Eb, Hpl; vm_compute; reflexivity|]. split; [exact HF|].
  destruct (HS HF) as (σ' & h' & E1 & E2 & _). eauto.
Qed.

Print Assumptions C74_get. Print Assumptions C74_stretch. Print Assumptions C74_next.

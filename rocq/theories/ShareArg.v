(** * Arguments in memory: what a setter reads *)
From Verif Require Import VarintFacts RecFacts Heap HeapApi Core HeapFacts HeapSet HeapExec HeapAlloc HeapStable GetFacts ScanFacts FindFacts.
From Verif Require Import Spec SpecScan SpecFind SpecPos SpecMem Core6 ApiFacts OffsetsFacts PosFacts HeapEffect P_Find P_Pos P_Effect StretchFacts P_Beyond Demo.
From Verif Require Import SpecShare Share ShareFacts.
From Coq Require Import ZifyBool.

(** Failures do not depend on the bytes of the argument. *)
Definition fails_alike {B} (r1 r2 : res B) : Prop := (forall b, r1 <> Ok b) -> r2 = r1.
Lemma hset_new_alike grow σ h f tag vl v1 v2 : fails_alike (hset_new grow σ h f tag vl v1) (hset_new grow σ h f tag vl v2).
Proof.
  intros H. unfold hset_new in *. destruct (h_append grow σ (h_buf h) tag) as [σ1 b1]. destruct (offsets_set _ _ _) as [o| | |]; cbn [rbind] in *; try reflexivity.
  destruct (put_offs σ1 _ o) as [σ2 h2]. destruct (h_append grow σ2 b1 vl) as [σ3 b3]. destruct (h_append grow σ3 b3 (src_bytes σ3 v1)) as [σ4 b4]. by destruct (H _ eq_refl).
Qed.
Lemma h_copy_alike σ s i x y : (forall r, h_copy σ s i x <> Ok r) -> h_copy σ s i y = h_copy σ s i x.
Proof.
  intros H. unfold h_copy in *. destruct (h_from s i) as [[d|]| | |]; cbn [rbind] in *; try reflexivity; by destruct (H _ eq_refl).
Qed.
Lemma hsetSingle_alike grow σ h f typ vl v1 v2 : src_len v1 = src_len v2 -> fails_alike (hsetSingle grow σ h f typ vl v1) (hsetSingle grow σ h f typ vl v2).
Proof.
  intros Hl H. unfold hsetSingle in *. rewrite <- Hl. destruct (put_uvarint _ _) as [tb| | |]; cbn [rbind] in *; try reflexivity.
  destruct (offsets_get _ _) as [[off ok]| | |]; cbn [rbind] in *; try reflexivity. destruct ok; [|apply hset_new_alike, H].
  destruct (old_len _ _ _) as [k| | |]; cbn [rbind] in *; try reflexivity. destruct (k =? _).
  - destruct (h_copy σ _ _ _) as [[σ1 k1]| | |]; cbn [rbind] in *; try reflexivity.
    rewrite (h_copy_alike σ1 _ _ (src_bytes σ1 v1)); [destruct (h_copy σ1 _ _ _) as [[σ2 k2]| | |]; reflexivity|].
    intros [σ2 k2] E. rewrite E in H. by destruct (H _ eq_refl).
  - destruct (h_from _ _) as [s1| | |]; cbn [rbind] in *; try reflexivity.
    destruct (h_copy σ _ _ _) as [[σ1 k1]| | |] eqn:Ec; cbn [rbind] in *; try reflexivity.
    destruct (h_range _ _ _) as [b2| | |] eqn:Er; cbn [rbind] in *; try reflexivity.
    destruct (adjust_map_keys _ _ _ _) as [o| | |] eqn:Eo; cbn [rbind] in *; try reflexivity.
    destruct (put_offs σ1 _ o) as [σ2 h2]. apply hset_new_alike, H.
Qed.

(** Removing the old value. *)
Lemma cut_unfold grow σ h f typ vl p k tag b e sl n : hwf σ h -> put_uvarint MaxVarintLen64 (make_tag f typ) = Ok tag ->
  offsets_get (hoffs σ h) f = Ok (p, true) -> 0 <= p <= hlen (h_buf h) -> hlen (h_buf h) < 2 ^ 61 ->
  old_len (sbytes σ (h_buf h)) p typ = Ok k -> k <> zlen vl + sl -> b = p - zlen tag -> e = p + k ->
  0 <= b -> 0 <= e <= hlen (h_buf h) -> n = hlen (h_buf h) - (e - b) -> n <= hcap (h_buf h) ->
  exists r, (forall v, src_len v = sl -> hsetSingle grow σ h f typ vl v = let* (σ2, h2) := r in hset_new grow σ2 h2 f tag vl v) /\
    forall σ2 h2, r = Ok (σ2, h2) ->
      placing σ σ2 (h_buf h) (h_buf h2) (put (window σ (h_buf h)) (Z.to_nat b) (firstn (Z.to_nat (hlen (h_buf h) - b)) (skipn (Z.to_nat e) (sbytes σ (h_buf h))))) n.
Proof.
  intros Hwf Htag Hget Hp Hlen Hold Hk Hb He Hb0 Hel Hn Hcap.
  pose proof (get_buf_some _ _ _ _ Hwf Hget) as Hnn. pose proof (proj1 Hwf) as Hs. change (2 ^ 61) with 2305843009213693952 in Hlen.
  assert (Htl : 0 <= zlen tag) by (unfold zlen; lia).
  destruct (h_buf h) as [s|] eqn:Eb; [|done]. cbn [hlen hcap] in *. pose proof Hs as (l & Hl & H1 & H2 & H3).
  assert (HW0 : zlen (window σ (Some s)) = scap s) by exact (window_len σ _ Hs).
  assert (Ebeg : u64 (p - u64 (zlen tag)) = b) by (rewrite (u64_small (zlen tag)) by (pows; lia); rewrite <- Hb; apply u64_small; pows; lia).
  assert (Ee : u64 (p + u64 k) = e) by (unfold u64; rewrite Zplus_mod_idemp_r, <- He; apply Z.mod_small; lia).
  assert (E1 : exists s1, h_from (Some s) e = Ok s1 /\ sbytes σ s1 = skipn (Z.to_nat e) (sbytes σ (Some s))).
  { pose proof (h_from_ok σ (Some s) e Hs) as HH. unfold slice_from in HH. rewrite (sbytes_length σ _ Hs) in HH. cbn [hlen] in HH.
    replace ((0 <=? e) && (e <=? slen s)) with true in HH by lia. destruct HH as (d1 & E1 & E2 & _). eauto. }
  destruct E1 as (s1 & E1 & Es1). set (y := skipn (Z.to_nat e) (sbytes σ (Some s))) in *.
  assert (Hy : zlen y = slen s - e).
  { unfold y, zlen. rewrite skipn_length. pose proof (sbytes_length σ _ Hs) as Hsl. unfold zlen in Hsl. cbn [hlen] in Hsl. lia. }
  pose proof (h_copy_ok σ (Some s) b y Hs) as Hcp. unfold copy_at in Hcp. rewrite (sbytes_length σ _ Hs) in Hcp. cbn [hlen] in Hcp.
  replace ((0 <=? b) && (b <=? slen s)) with true in Hcp by lia. destruct Hcp as (σ1 & E2 & _ & Hm1 & _).
  destruct (copy_effect _ _ _ _ _ _ _ _ Hs (effect_refl σ (Some s) Hs) HW0 E2) as (_ & _ & He1).
  assert (Etake : take (Z.to_nat (Z.min (slen s - b) (zlen y))) y = firstn (Z.to_nat (slen s - b)) y).
  { destruct (Z.le_gt_cases (slen s - b) (zlen y)); [f_equal; lia|]. rewrite !take_ge; [reflexivity|..]; unfold zlen in *; lia. }
  rewrite Etake in He1. rewrite <- put_overw in He1.
  set (W := put (window σ (Some s)) (Z.to_nat b) (firstn (Z.to_nat (slen s - b)) y)) in *.
  assert (HW1 : zlen W = scap s).
  { unfold W. rewrite put_overw. unfold zlen in *. rewrite overw_length; [lia|]. rewrite take_length. lia. }
  assert (E3 : u64 (slen s - u64 (e - b)) = n) by (unfold u64; rewrite Zminus_mod_idemp_r, Z.mod_small; lia).
  exists (let* o := adjust_map_keys (map_keys (mkOffsets (adjust_array (oa (hoffs σ1 h)) e (u64 (e - b))) (om (hoffs σ1 h)))) e (u64 (e - b)) (mkOffsets (adjust_array (oa (hoffs σ1 h)) e (u64 (e - b))) (om (hoffs σ1 h))) in
          Ok (put_offs σ1 (put_buf h (Some (mkSl (sarr s) (soff s) n (scap s)))) o)).
  split.
  - intros v Hv. unfold hsetSingle. rewrite Htag, rbind_Ok, Hget, rbind_Ok, Eb, Hold, rbind_Ok, Hv. replace (k =? _) with false by lia.
    rewrite Ebeg, Ee, E1, rbind_Ok, Es1, E2, rbind_Ok. cbn [hlen]. rewrite E3. unfold h_range at 1. replace ((0 <=? 0) && (0 <=? n) && (n <=? scap s)) with true by lia.
    cbn [rbind]. rewrite Z.add_0_r, !Z.sub_0_r. destruct (adjust_map_keys _ _ _ _) as [o| | |]; cbn [rbind]; try reflexivity.
  - intros σ2 h2. destruct (adjust_map_keys _ _ _ _) as [o| | |]; cbn [rbind]; try discriminate. intros [= E5].
    destruct (put_offs_arrs _ _ _ _ _ E5) as [Ea Ebuf]. cbn [put_buf h_buf] in Ebuf.
    split; [eapply effect_arrs; [exact He1|exact Ea]|]. split; [exact HW1|]. split; [|cbn; lia]. unfold at_place. rewrite Ebuf. split; [reflexivity|lia].
Qed.

(** The argument as read. *)
Lemma hset_new_arg grow A σ0 s σ h f tag vl a n W : A ⊆ arrs σ0 -> fits A s -> fits A a -> placing σ0 σ s (h_buf h) W n ->
  hset_new grow σ h f tag vl (View a) =
  hset_new grow σ h f tag vl (Scratch (bytes_in (rewritten A s (added W (Z.to_nat n) [tag; vl])) a)).
Proof.
  intros HA Hs Ha (He & HW & Hp & Hn). unfold hset_new.
  destruct (h_append grow σ (h_buf h) tag) as [σ1 b1] eqn:E1.
  destruct (offsets_set _ _ _) as [o| | |]; cbn [rbind]; try reflexivity.
  destruct (put_offs σ1 _ o) as [σ2 h2] eqn:E2. destruct (put_offs_arrs _ _ _ _ _ E2) as [Ea _].
  destruct (h_append grow σ2 b1 vl) as [σ3 b3] eqn:E3.
  assert (Hap : appended grow σ (h_buf h) [tag; vl] σ3 b3) by (eapply appended_cons; [exact E1|exact Ea|eapply appended_cons; [exact E3|reflexivity|constructor]]).
  assert (Hsw : swf σ0 s) by (eapply fits_swf; eassumption).
  destruct (appended_effect _ _ _ _ _ _ _ _ Hsw Hap W n He HW Hp Hn) as [He3 _].
  cbn [src_bytes]. rewrite (fits_bytes _ σ3 a); [reflexivity|eapply effect_rewritten; eassumption|].
  eapply fits_sizes; [|exact Ha]. apply rewritten_sizes; [exact Hs|]. rewrite added_length by (unfold zlen in *; lia).
  pose proof (fits_cells_len A s Hs). unfold zlen in *. lia.
Qed.

Lemma placing_start σ h : hwf σ h -> placing σ σ (h_buf h) (h_buf h) (window σ (h_buf h)) (hlen (h_buf h)).
Proof.
  intros Hwf. pose proof (proj1 Hwf) as Hs. split; [apply effect_refl, Hs|]. split; [apply window_len, Hs|].
  destruct (h_buf h) as [[a o l c]|]; cbn; [|split; [auto|lia]]. destruct Hs as (? & _ & _ & H & _). cbn in H. auto.
Qed.

Section Arg.
Context (A : arrays) (σ : mem) (h : hmsg) (o : obj) (mt : mtype) (a : option slice) (f : Z) (grow : policy).
Hypothesis (Hn : Z.of_nat (alen mt) <= 2 ^ 29) (HA : A ⊆ arrs σ) (HG : good A) (Hbuf : o_buf o = h_buf h) (Hfit : fits A (h_buf h)) (Hwf : hwf σ h)
  (Hinv : pinv mt (2 ^ 60) (abs σ h) (state_of A o)) (Ha : fits A a) (Hf : 0 <= f < Z.of_nat (alen mt)).
Local Notation s := (state_of A o).
Local Notation x0 := (bytes_in A a).

Lemma len_small : plen s = hlen (h_buf h) /\ 0 <= hlen (h_buf h) < 2 ^ 60 /\ pbytes s = sbytes σ (h_buf h) /\ cells A (o_buf o) = window σ (h_buf h).
Proof.
  pose proof (fits_cap A _ HG Hfit) as [H1 H2]. rewrite <- hlen_extent in H1. destruct (buf_len mt _ σ h s Hinv Hwf) as [H3 H4].
  split_and!; [auto|lia|lia|auto|rewrite Hbuf; apply fits_cells; assumption].
Qed.

Lemma view_put : exists lb, put_uvarint MaxVarintLen64 (u64 (hlen a)) = Ok lb /\ is_minimal_varint (Z.of_nat (length x0)) lb.
Proof.
  pose proof (fits_cap A _ HG Ha) as [H1 H2]. pose proof (fits_bytes_len A a Ha) as H3. rewrite hlen_extent. rewrite H3. change (2 ^ 60) with 1152921504606846976 in *.
  rewrite u64_small by (pows; lia). apply put_min; [pows; lia| |unfold MaxVarintLen64; lia].
  change (2 ^ (7 * Z.of_nat MaxVarintLen64)) with 1180591620717411303424. lia.
Qed.

Lemma h_set_view_eq x lb : length x = length x0 -> put_uvarint MaxVarintLen64 (u64 (hlen a)) = Ok lb ->
  h_set_view grow σ h f a = hsetSingle grow σ h f WireBytes lb (View a) /\
  h_set grow PBytes σ h f (VBytes (Some x)) = hsetSingle grow σ h f WireBytes lb (Scratch x).
Proof.
  intros Hx Hlb. unfold h_set_view, h_set. cbn [set_args]. unfold default, id. rewrite Hlb. cbn [rbind]. split; [reflexivity|].
  unfold zlen. rewrite Hx, (fits_bytes_len A a Ha), <- hlen_extent, Hlb. reflexivity.
Qed.

(** The memory of which the argument is read. *)
Lemma arg_reads W : length W = length (cells A (h_buf h)) -> Forall is_byte W ->
  length (bytes_in (rewritten A (h_buf h) W) a) = length x0 /\ Forall is_byte (bytes_in (rewritten A (h_buf h) W) a).
Proof.
  intros HW Hb. assert (Ha' : fits (rewritten A (h_buf h) W) a) by (eapply fits_sizes; [apply rewritten_sizes; eassumption|exact Ha]).
  split; [|apply good_bytes; [apply rewritten_good; assumption|exact Ha']].
  pose proof (fits_bytes_len _ _ Ha'). pose proof (fits_bytes_len _ _ Ha). lia.
Qed.

Lemma placed_bytes r ps : Forall (Forall is_byte) ps -> Forall is_byte (placed r ps).
Proof. intros H. revert r. induction H as [|p ps Hp Hps IH]; intros r; cbn; [constructor|]. destruct (_ <=? _)%nat; [|constructor]. apply Forall_app. auto. Qed.
Lemma put_bytes W i x : Forall is_byte W -> Forall is_byte x -> Forall is_byte (put W i x).
Proof. intros H1 H2. unfold put. rewrite !Forall_app. split_and!; [apply Forall_take, H1|exact H2|apply Forall_drop, H1]. Qed.
Lemma added_bytes W n ps : Forall is_byte W -> Forall (Forall is_byte) ps -> Forall is_byte (added W n ps).
Proof. intros H1 H2. apply put_bytes; [exact H1|]. apply placed_bytes, H2. Qed.

Lemma pieces_tag w tb lb x : pieces f w tb lb x -> Forall is_byte tb /\ Forall is_byte lb /\ tb <> [].
Proof.
  intros Hp. assert (Ht : minimal_tag_enc (f, w) tb) by (destruct Hp; assumption). destruct (minimal_small mt _ _ (proj2 Ht)) as [H1 H2]. split_and!; [exact H2| |].
  - destruct Hp as [? ? ? _ _ H|]; [apply (minimal_small mt _ _ H)|constructor].
  - intros ->. cbn in H1. lia.
Qed.

Lemma reads_arg_sound x : reads_arg A o f a x ->
  length x = length x0 /\ Forall is_byte x /\ h_set_view grow σ h f a = h_set grow PBytes σ h f (VBytes (Some x)).
Proof.
  intros Hr. destruct len_small as (Hlen & Hsmall & Hbytes & Hcells). destruct view_put as (lb0 & Hput & Hmin).
  destruct (tag_bytes mt Hn f (WBytes x0) Hf) as (tb0 & Hput2 & Htag). change (wire_type (WBytes x0)) with WireBytes in Hput2.
  assert (Hpc0 : pieces f (WBytes x0) tb0 lb0 x0) by (apply pieces_bytes; auto).
  destruct (pieces_tag _ _ _ _ Hpc0) as (Htb & Hlb & Htn).
  assert (Hcells2 : cells A (h_buf h) = window σ (h_buf h)) by (rewrite <- Hcells, Hbuf; reflexivity).
  pose proof (good_cells A _ HG Hfit) as HWb. rewrite Hcells2 in HWb.
  pose proof (good_bytes A _ HG Hfit) as HBb. 
  assert (HBb2 : Forall is_byte (pbytes s)) by (unfold state_of; cbn; rewrite Hbuf; exact HBb).
  assert (Hcl : Z.of_nat (length (window σ (h_buf h))) = hcap (h_buf h)) by (rewrite <- Hcells, Hbuf; apply fits_cells_len, Hfit).
  assert (Hlc : hlen (h_buf h) <= hcap (h_buf h)) by (apply (fits_cap A _ HG Hfit)).
  pose proof (pinv_range _ _ _ _ _ Hinv Hf) as Hrng. pose proof Hinv as (Ht & Howf & _ & Hb & Hl & Hpos).
  destruct (Hpos f Hf) as [Hof Hpf]. pose proof (offsets_get_eq (hoffs σ h) f Howf Hrng) as Hget. cbn [abs moff] in Hof. rewrite Hof in Hget.
  assert (Hsl : src_len (View a) = Z.of_nat (length x0)) by (cbn; rewrite hlen_extent; symmetry; apply fits_bytes_len, Ha).
  assert (Hpn : Z.to_nat (hlen (h_buf h)) = length (pbytes s)) by (rewrite <- Hlen; unfold plen; lia).
  change (2 ^ 60) with 1152921504606846976 in *.
  assert (Hocc : forall p k, 0 <= p <= plen s -> occupies PBytes (pbytes s) p k -> old_len (sbytes σ (h_buf h)) p WireBytes = Ok k).
  { intros p k Hp Hk. destruct (occupies_old_len mt PBytes (VBytes (Some x0)) _ _ s p k Hinv ltac:(pows; change (2 ^ 62) with 4611686018427387904; lia) ltac:(apply good_bytes; assumption) Hp Hk) as [E _]. exact E. }
  assert (Hcut : forall p k b e n tb lb x, ppos s f = Some p -> p <= plen s -> occupies PBytes (pbytes s) p k -> k <> Z.of_nat (length (lb0 ++ x0)) ->
     pieces f (WBytes x0) tb lb x0 -> b = p - Z.of_nat (length tb) -> e = p + k -> 0 <= b -> 0 <= e <= plen s -> n = plen s - (e - b) -> n <= Z.of_nat (length (window σ (h_buf h))) ->
     x = bytes_in (rewritten A (o_buf o) (added (put (cells A (o_buf o)) (Z.to_nat b) (firstn (Z.to_nat (plen s - b)) (skipn (Z.to_nat e) (pbytes s)))) (Z.to_nat n) [tb; lb])) a ->
     length x = length x0 /\ Forall is_byte x /\ h_set_view grow σ h f a = h_set grow PBytes σ h f (VBytes (Some x))).
  { clear x Hr; intros p k b e n tb lb x Hp Hpl Hk Hne Hpc Eb Ee Hb0 He En Hnc Ex. destruct (pieces_unique _ _ _ _ _ _ _ _ Hpc0 Hpc) as (-> & -> & _). specialize (Hpf p Hp). rewrite Hp in Hget.
    destruct (cut_unfold grow σ h f WireBytes lb0 p k tb0 b e (Z.of_nat (length x0)) n Hwf Hput2 Hget ltac:(lia) ltac:(pows; change (2 ^ 61) with 2305843009213693952; lia) (Hocc p k ltac:(lia) Hk)
      ltac:(rewrite app_length in Hne; unfold zlen; lia) Eb Ee Hb0 ltac:(lia) ltac:(lia) ltac:(lia)) as (r & Hr1 & Hr2).
    rewrite <- Hlen, <- Hbytes, <- Hcells in Hr2. rewrite Hbuf in Ex. rewrite Hbuf in Hr2.
    set (W := put (cells A (h_buf h)) (Z.to_nat b) (firstn (Z.to_nat (plen s - b)) (skipn (Z.to_nat e) (pbytes s)))) in *.
    assert (HWl : length W = length (cells A (h_buf h))).
    { unfold W. rewrite put_overw. apply overw_length. rewrite firstn_length, skipn_length. rewrite Hcells2. unfold plen in *. lia. }
    assert (HWb' : Forall is_byte W). { unfold W. apply put_bytes; [rewrite Hcells2; exact HWb|apply Forall_take, Forall_drop, HBb2]. }
    destruct (arg_reads (added W (Z.to_nat n) [tb0; lb0])) as [G1 G2].
    { rewrite added_length; [exact HWl|]. rewrite HWl, Hcells2. lia. }
    { apply added_bytes; [exact HWb'|repeat constructor; assumption]. }
    rewrite <- Ex in G1, G2. split; [exact G1|]. split; [exact G2|].
    destruct (h_set_view_eq x lb0 G1 Hput) as [-> ->]. rewrite Hr1 by exact Hsl. rewrite (Hr1 (Scratch x)) by (cbn; unfold zlen; lia).
    destruct r as [[σ2 h2]| | |]; cbn [rbind]; try reflexivity. rewrite Ex. eapply hset_new_arg; eauto. }
  destruct Hr as [tb lb s1 x1 Hpc Hp|p tb lb s1 x1 Hpc Hp Hpl Hk|p k tb lb b e n s1 x1 Hpc Hp Hpl Hk Hne Eb Ee Hbe Hel En|p k tb lb b e d n s1 x1 Hpc Hp Hpl Hk Eb Ee Hbe Ed Hroom En|x1 Hnever]; subst x1; try subst s1.
  - destruct (pieces_unique _ _ _ _ _ _ _ _ Hpc0 Hpc) as (-> & -> & _). rewrite Hp in Hget.
    rewrite Hbuf. rewrite <- Hpn.
    destruct (arg_reads (added (cells A (h_buf h)) (Z.to_nat (hlen (h_buf h))) [tb0; lb0])) as [G1 G2].
    { apply added_length. rewrite Hcells2. lia. }
    { apply added_bytes; [rewrite Hcells2; exact HWb|repeat constructor; assumption]. }
    split; [exact G1|]. split; [exact G2|]. destruct (h_set_view_eq _ lb0 G1 Hput) as [-> ->].
    unfold hsetSingle. rewrite Hput2, !rbind_Ok, Hget, !rbind_Ok.
    replace (cells A (h_buf h)) with (window σ (h_buf h)) by (rewrite <- Hcells, Hbuf; reflexivity).
    eapply hset_new_arg; try eassumption. apply placing_start, Hwf.
  - destruct (pieces_unique _ _ _ _ _ _ _ _ Hpc0 Hpc) as (-> & -> & _). rewrite Hp in Hget. specialize (Hpf p Hp).
    rewrite Hbuf.
    destruct (arg_reads (put (cells A (h_buf h)) (Z.to_nat p) (firstn (Z.to_nat (plen s - p)) lb0))) as [G1 G2].
    { rewrite put_overw. apply overw_length. rewrite firstn_length, Hcells2. lia. }
    { apply put_bytes; [rewrite Hcells2; exact HWb|apply Forall_take, Hlb]. }
    split; [exact G1|]. split; [exact G2|]. destruct (h_set_view_eq _ lb0 G1 Hput) as [-> ->].
    unfold hsetSingle. rewrite Hput2, !rbind_Ok, Hget, !rbind_Ok, (Hocc p _ ltac:(lia) Hk), !rbind_Ok, Hsl.
    cbn [src_len]. unfold zlen. rewrite G1. rewrite app_length. replace (_ =? _) with true by lia.
    pose proof (get_buf_some _ _ _ _ Hwf Hget) as Hnn. pose proof (proj1 Hwf) as Hs.
    destruct (h_copy σ (h_buf h) p lb0) as [[σ1 k1]| | |] eqn:E1; cbn [rbind]; try reflexivity.
    destruct (h_buf h) as [t|] eqn:Et; [|done]. cbn [hcap hlen] in *.
    destruct (copy_effect _ _ _ _ _ _ _ _ Hs (effect_refl σ (Some t) Hs) ltac:(exact (window_len σ _ Hs)) E1) as (_ & Hk1 & He1).
    assert (Etake : take (Z.to_nat k1) lb0 = firstn (Z.to_nat (plen s - p)) lb0).
    { rewrite Hk1. destruct (Z.le_gt_cases (slen t - p) (zlen lb0)); [f_equal; lia|]. rewrite !take_ge; [reflexivity|..]; unfold zlen in *; lia. }
    rewrite Etake in He1. cbn [src_bytes]. rewrite (fits_bytes (rewritten A (Some t) (put (cells A (Some t)) (Z.to_nat p) (firstn (Z.to_nat (plen s - p)) lb0))) σ1 a); [reflexivity| |].
    + apply (effect_rewritten A σ); [exact HA|]. rewrite Hcells2. exact He1.
    + eapply fits_sizes; [|exact Ha]. apply rewritten_sizes; [exact Hfit|]. rewrite put_overw. apply overw_length. rewrite firstn_length, Hcells2. lia.
  - destruct (pieces_unique _ _ _ _ _ _ _ _ Hpc0 Hpc) as (-> & -> & _).
    eapply (Hcut p k b e (Z.of_nat n)); try eassumption; try lia.
    + rewrite Nat2Z.id. rewrite (take_ge (skipn _ _)); [reflexivity|]. rewrite skipn_length. unfold plen. lia.
  - destruct (pieces_unique _ _ _ _ _ _ _ _ Hpc0 Hpc) as (-> & -> & _).
    eapply (Hcut p k b e (Z.of_nat n)); try eassumption; try lia.
    + rewrite <- Hcells. lia.
    + rewrite Nat2Z.id. reflexivity.
  - destruct (h_set_view_eq x0 lb0 eq_refl Hput) as [-> E2]. split; [reflexivity|]. split; [apply good_bytes; assumption|]. rewrite E2.
    apply hsetSingle_alike; [cbn [src_len]; unfold zlen; rewrite <- Hsl; reflexivity|]. rewrite <- E2.
    assert (Hin : in_type PBytes (VBytes (Some x0))) by (apply good_bytes; assumption).
    assert (Hx0 : Z.of_nat (length x0) < 1152921504606846976).
    { pose proof (fits_cap A _ HG Ha) as [? ?]. rewrite (fits_bytes_len A a Ha). change (2 ^ 60) with 1152921504606846976 in *. lia. }
    destruct Hnever as [Hnever|Hnever].
    + pose proof (set_sound mt Hn _ _ s PBytes f (VBytes (Some x0)) Hinv Hf Hin ltac:(cbn [mutation_size pval_size]; change (2 ^ 62) with 4611686018427387904; unfold zlen; lia) _ Hnever) as Hm. cbn [agrees_with] in Hm.
      pose proof (h_set_refines grow PBytes σ h f (VBytes (Some x0)) Hwf) as Href. rewrite Hm in Href. cbn [refines] in Href. rewrite Href. discriminate.
    + inversion Hnever as [|p k tb lb x b e Hpc Hp Hpl Hk Eb Ee Hbe Hroom]. cbn [wire_of] in Hpc.
      destruct (pieces_unique _ _ _ _ _ _ _ _ Hpc0 Hpc) as (-> & -> & ->). rewrite Hp in Hget. specialize (Hpf p Hp).
      destruct (stretch_effect grow σ h f WireBytes lb0 (Scratch x0) p k tb0 b e (b - e) Hwf I Hput2 Htn Hget ltac:(lia) ltac:(change (2 ^ 62) with 4611686018427387904; lia) (Hocc p k ltac:(lia) Hk) Eb Ee Hbe eq_refl) as [G _].
      rewrite E2, G; [discriminate|]. rewrite Hcells in Hroom. lia.
Qed.
End Arg.

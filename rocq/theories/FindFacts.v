(** * FindNextField and Next are the reader of SpecFind.v *)
From Verif Require Import Api Spec SpecScan SpecFind GenApi VarintFacts OffsetsFacts RecFacts Fuel ScanFacts.
From Coq Require Import ZifyBool.

Lemma varint_at_total c : Forall is_byte c -> exists v n, varint_at c v n.
Proof. intros Hc. destruct (uvarint c) as [v n] eqn:E. exists v, n. apply varint_at_uvarint; assumption. Qed.

Lemma varint_at_det c v n v' n' : Forall is_byte c -> varint_at c v n -> varint_at c v' n' -> v = v' /\ n = n'.
Proof. intros Hc H1 H2. apply varint_at_uvarint in H1, H2; try assumption. rewrite H1 in H2. injection H2 as -> ->. auto. Qed.

Lemma varint_at_small c v n : Forall is_byte c -> varint_at c v n -> 0 <= v < 2 ^ 64 /\ - zlen c <= n <= zlen c /\ n <= 10 /\ (n <= 0 -> v = 0).
Proof.
  intros Hc [Hr|(_ & -> & ->)].
  - pose proof (reads_small _ _ _ Hc Hr) as [Hv Hn]. destruct Hr as [v vb r Hvb|init lst r H1 H2 H3].
    + unfold zlen. rewrite app_length in *. lia.
    + unfold zlen in *. rewrite app_length in *. cbn [length] in *. lia.
  - pose proof (zlen_nonneg c). pows. lia.
Qed.

Lemma tag_field_small v : 0 <= v < 2 ^ 64 -> i64 (Z.shiftr v 3) = v / 8.
Proof.
  intros Hv. rewrite shiftr_3. apply i64_small. revert Hv. pows. intros Hv.
  pose proof (Z.div_pos v 8 ltac:(lia) ltac:(lia)). pose proof (Z.div_lt_upper_bound v 8 9223372036854775808 ltac:(lia) ltac:(lia)). lia.
Qed.

Lemma size_stay t c s : Forall is_byte c -> zlen c < 2 ^ 63 ->
  (moves t c s \/ (t = 0 \/ t = 2) /\ cut_varint c /\ s = 0) -> fieldDataSize t c = Ok (i64 s).
Proof.
  intros Hc Hlc [Hm|(Ht & Hcut & ->)]; [apply size_moves; assumption|]. rewrite size_cut by assumption. reflexivity.
Qed.

Section Find.
Context (field : Z) (b : list Z).
Hypothesis (Hb : Forall is_byte b) (Hl : Z.of_nat (length b) < 2 ^ 62).

(** One iteration of the search. *)
Lemma find_tag fuel i tag p : tag_or_end_at b i tag p ->
  p <= zlen b /\
  find_loop (S fuel) b field i =
    if tag / 8 =? field then let* r := slice_from b p in Ok (Some r)
    else let* c := slice_from b p in let* s := fieldDataSize (tag mod 8) c in find_loop fuel b field (i64 (p + s)).
Proof.
  intros (Hi & n & Hv & ->). fold (zlen b) in *. pose proof Hl as Hl'. change (2 ^ 62) with 4611686018427387904 in Hl'.
  pose proof (varint_at_small _ _ _ (at_bytes b i Hb) Hv) as (Ht & Hn & Hn10 & _).
  assert (Hz : zlen (at_pos b i) = zlen b - i) by (unfold zlen in *; rewrite skipn_length; lia).
  split; [lia|]. cbn [find_loop]. replace (i <? zlen b) with true by lia. fold (zlen b) in Hl'.
  unfold slice_from at 1. replace ((0 <=? i) && (i <=? zlen b)) with true by lia. cbn [rbind].
  change (drop (Z.to_nat i) b) with (at_pos b i). apply varint_at_uvarint in Hv; [|apply at_bytes, Hb]. rewrite Hv. cbn zeta.
  rewrite tag_field_small by exact Ht. rewrite land_7. rewrite (i64_small (i + n)) by (pows; lia). reflexivity.
Qed.

Lemma find_skip i j fuel : skips field b i j -> find_loop (S fuel) b field i = find_loop fuel b field j.
Proof.
  intros (tag & p & s & Ht & Hp & Hf & Hm & ->). destruct (find_tag fuel i tag p Ht) as [Hpl ->].
  replace (tag / 8 =? field) with false by lia. unfold slice_from. replace ((0 <=? p) && (p <=? zlen b)) with true by lia. cbn [rbind].
  change (drop (Z.to_nat p) b) with (at_pos b p).
  rewrite (size_stay _ _ s); [|apply at_bytes, Hb| |exact Hm].
  - cbn [rbind]. rewrite i64_add. reflexivity.
  - pose proof (at_small b p). unfold zlen in *. revert Hl. change (2 ^ 62) with 4611686018427387904. pows. lia.
Qed.

Lemma find_hit i p fuel : finds field b i p -> find_loop (S fuel) b field i = Ok (Some (at_pos b p)).
Proof.
  intros (tag & Ht & Hp & Hf). destruct (find_tag fuel i tag p Ht) as [Hpl ->]. replace (tag / 8 =? field) with true by lia.
  unfold slice_from. replace ((0 <=? p) && (p <=? zlen b)) with true by lia. reflexivity.
Qed.

Lemma find_end i fuel : finds_none b i -> find_loop (S fuel) b field i = Ok None.
Proof. intros H. unfold finds_none in H. fold (zlen b) in H. cbn [find_loop]. replace (i <? zlen b) with false by lia. reflexivity. Qed.

Lemma find_fail i fuel : search_fails field b i -> find_loop (S fuel) b field i = Panic.
Proof.
  intros [Hi|tag p Ht Hp|tag p Ht Hf H0 H1 H2 H5].
  - cbn [find_loop]. pose proof (zlen_nonneg b). replace (i <? zlen b) with true by lia. unfold slice_from.
    replace ((0 <=? i) && (i <=? zlen b)) with false by lia. reflexivity.
  - destruct (find_tag fuel i tag p Ht) as [Hpl ->]. unfold slice_from. replace ((0 <=? p) && (p <=? zlen b)) with false by lia.
    destruct (_ =? _); reflexivity.
  - destruct (find_tag fuel i tag p Ht) as [Hpl ->]. replace (tag / 8 =? field) with false by lia. unfold slice_from.
    destruct (_ && _); cbn [rbind]; [|reflexivity]. rewrite size_bad by assumption. reflexivity.
Qed.

Lemma search_cases i : finds_none b i \/ (exists p, finds field b i p) \/ search_fails field b i \/ exists j, skips field b i j.
Proof.
  destruct (Z.le_gt_cases (Z.of_nat (length b)) i) as [H|H]; [left; exact H|]. right.
  destruct (Z.lt_ge_cases i 0) as [Hneg|H0]; [right; left; apply search_before, Hneg|].
  destruct (varint_at_total (at_pos b i) (at_bytes _ _ Hb)) as (tag & n & Hv).
  assert (Ht : tag_or_end_at b i tag (i + n)) by (split; [lia|eauto]).
  destruct (Z.lt_ge_cases (i + n) 0) as [Hp|Hp]; [right; left; eapply search_tag_before; eassumption|].
  destruct (decide (tag / 8 = field)) as [Hf|Hf]; [left; exists (i + n), tag; split_and!; [exact Ht|lia|exact Hf]|].
  right. destruct (move_cases (tag mod 8) (at_pos b (i + n)) (at_bytes _ _ Hb)) as [(s & Hm)|[[Ht2 Hc]|(H1 & H2 & H3 & H4)]].
  - right. eexists. exists tag, (i + n), s. split_and!; [exact Ht|lia|exact Hf|left; exact Hm|reflexivity].
  - right. eexists. exists tag, (i + n), 0. split_and!; [exact Ht|lia|exact Hf|right; auto|reflexivity].
  - left. eapply search_type; eassumption.
Qed.

Lemma skip_many_loop i k j : skip_many field b i k j -> forall fuel, find_loop (k + fuel) b field i = find_loop fuel b field j.
Proof. induction 1 as [|i j n k Hs Hm IH]; intros fuel; [reflexivity|]. cbn [Nat.add]. rewrite (find_skip _ _ _ Hs). apply IH. Qed.

Lemma loop_skip_many fuel : forall i, exists k j, skip_many field b i k j /\
  ((k = fuel /\ find_loop fuel b field i = OutOfFuel) \/
   (finds_none b j /\ find_loop fuel b field i = Ok None) \/
   (exists p, finds field b j p /\ find_loop fuel b field i = Ok (Some (at_pos b p))) \/
   (search_fails field b j /\ find_loop fuel b field i = Panic)).
Proof.
  induction fuel as [|fuel IH]; intros i.
  - exists 0%nat, i. split; [constructor|]. left. auto.
  - destruct (search_cases i) as [H|[(p & H)|[H|(j & H)]]].
    + exists 0%nat, i. split; [constructor|]. right. left. split; [exact H|apply find_end, H].
    + exists 0%nat, i. split; [constructor|]. right. right. left. exists p. split; [exact H|apply find_hit, H].
    + exists 0%nat, i. split; [constructor|]. right. right. right. split; [exact H|apply find_fail, H].
    + destruct (IH j) as (k & x & Hk & Hc). exists (S k), x. split; [econstructor; eassumption|].
      rewrite (find_skip _ _ _ H). destruct Hc as [[-> H1]|Hc]; [left; auto|right; exact Hc].
Qed.

Lemma skip_app i k j k2 x : skip_many field b i k j -> skip_many field b j k2 x -> skip_many field b i (k + k2) x.
Proof. induction 1; intros H2; [exact H2|]. cbn. econstructor; eauto. Qed.

Lemma skips_range i j : skips field b i j -> 0 <= i < zlen b.
Proof. intros (tag & p & s & (Hi & _) & _). exact Hi. Qed.

(** A long search comes back to where it was. *)
Lemma skip_visits i k j : skip_many field b i k j ->
  exists ps, length ps = k /\ (forall x, x ∈ ps -> 0 <= x < zlen b) /\
    (forall a x, ps !! a = Some x -> skip_many field b i a x) /\
    (forall a c x y, (a <= c)%nat -> ps !! a = Some x -> ps !! c = Some y -> skip_many field b x (c - a) y).
Proof.
  induction 1 as [i|i j n k Hh Hw IH].
  - exists []. split_and!; [reflexivity|intros x Hx; inversion Hx|discriminate|discriminate].
  - destruct IH as (ps & Hlen & Hr & Hp & Hs). exists (i :: ps). split_and!; [cbn; lia| | |].
    + intros x Hx. apply elem_of_cons in Hx as [->|Hx]; [eapply skips_range, Hh|apply Hr, Hx].
    + intros [|m] x Hx; [injection Hx as <-; constructor|]. econstructor; [exact Hh|apply Hp, Hx].
    + intros [|a] [|c] x y Hac Hx Hy; cbn in Hx, Hy.
      * injection Hx as <-. injection Hy as <-. constructor.
      * injection Hx as <-. cbn. econstructor; [exact Hh|apply Hp, Hy].
      * lia.
      * cbn. apply Hs; [lia|exact Hx|exact Hy].
Qed.

Lemma long_search_cycles i k j : skip_many field b i k j -> (length b < k)%nat ->
  exists x k1 k2, skip_many field b i k1 x /\ skip_many field b x (S k2) x.
Proof.
  intros Hw Hlen. destruct (skip_visits _ _ _ Hw) as (ps & Hk & Hr & Hp & Hs).
  destruct (not_nodup ps) as (a & c & x & Hac & Ha & Hc).
  { intros Hnd. pose proof (nodup_range (length b) ps Hnd Hr). lia. }
  exists x, a, (c - a - 1)%nat. split; [apply Hp, Ha|]. replace (S (c - a - 1)) with (c - a)%nat by lia.
  apply (Hs a c); [lia|exact Ha|exact Hc].
Qed.

Lemma cycle_diverges i k : skip_many field b i (S k) i -> forall fuel, find_loop fuel b field i = OutOfFuel.
Proof.
  intros Hc. induction fuel as [fuel IH] using lt_wf_ind. destruct fuel as [|fuel]; [reflexivity|].
  destruct (decide (S k <= S fuel)%nat) as [Hk|Hk].
  - replace (S fuel) with (S k + (fuel - k))%nat by lia. rewrite (skip_many_loop _ _ _ Hc). apply IH. lia.
  - assert (G : forall i k j, skip_many field b i k j -> forall n, (n <= k)%nat -> find_loop n b field i = OutOfFuel).
    { clear -Hb Hl. intros i k j. induction 1 as [|i j n k Hs Hm IH]; intros m Hm'; [replace m with 0%nat by lia; reflexivity|].
      destruct m as [|m]; [reflexivity|]. rewrite (find_skip _ _ _ Hs). apply IH. lia. }
    eapply G; [exact Hc|lia].
Qed.

Lemma find_mono fuel : forall fuel' i, (fuel <= fuel')%nat -> find_loop fuel b field i <> OutOfFuel -> find_loop fuel' b field i = find_loop fuel b field i.
Proof.
  induction fuel as [|fuel IH]; intros fuel' i Hf Hn; [contradiction|]. destruct fuel' as [|fuel']; [lia|].
  destruct (search_cases i) as [H|[(p & H)|[H|(j & H)]]].
  - rewrite !find_end by exact H. reflexivity.
  - rewrite !(find_hit _ _ _ H). reflexivity.
  - rewrite !find_fail by exact H. reflexivity.
  - rewrite !(find_skip _ _ _ H) in *. apply IH; [lia|exact Hn].
Qed.

(** The search from [i], with the number of iterations of the model. *)
Lemma search_total i :
  (exists k j, skip_many field b i k j /\ finds_none b j /\ find_loop (fuel_of b) b field i = Ok None) \/
  (exists k j p, skip_many field b i k j /\ finds field b j p /\ find_loop (fuel_of b) b field i = Ok (Some (at_pos b p))) \/
  (exists k j, skip_many field b i k j /\ search_fails field b j /\ find_loop (fuel_of b) b field i = Panic) \/
  (exists k j k2, skip_many field b i k j /\ skip_many field b j (S k2) j /\ forall fuel, find_loop fuel b field i = OutOfFuel).
Proof.
  destruct (loop_skip_many (fuel_of b) i) as (k & j & Hk & [[E H]|[[H1 H2]|[(p & H1 & H2)|[H1 H2]]]]).
  - right. right. right. destruct (long_search_cycles _ _ _ Hk) as (x & k1 & k2 & H1 & H2); [unfold fuel_of in E; lia|].
    exists k1, x, k2. split_and!; [exact H1|exact H2|]. intros fuel.
    destruct (find_loop fuel b field i) as [a| | |] eqn:Ef; [| | |reflexivity]; exfalso;
    pose proof (find_mono fuel (k1 + fuel) i ltac:(lia) ltac:(rewrite Ef; discriminate)) as Hm;
    rewrite (skip_many_loop _ _ _ H1), (cycle_diverges _ _ H2), Ef in Hm; discriminate.
  - left. eauto 10.
  - right. left. eauto 10.
  - right. right. left. eauto 10.
Qed.

(** FindNextField itself. *)
Definition find_result (r : next_result) : res (option (list Z) * option (list Z)) :=
  match r with
  | More x rest => Ok (Some rest, Some x)
  | Last x => Ok (None, Some x)
  | NBeyond => PastLen
  | NFault => Panic
  | NLoops => OutOfFuel
  end.

Lemma head_cases : exists len n, varint_at b len n /\ uvarint b = (len, n) /\ n <= zlen b /\
  i64 (n + i64 len) = signed64 (n + len).
Proof.
  destruct (varint_at_total b Hb) as (len & n & Hv). exists len, n. pose proof (varint_at_small _ _ _ Hb Hv).
  split_and!; [exact Hv|apply varint_at_uvarint; assumption|lia|rewrite i64_add; reflexivity].
Qed.

Lemma FindNextField_total : exists r, next field b r /\ FindNextField (fuel_of b) (Some b) field = find_result r /\
  (r = NLoops -> forall fuel, FindNextField fuel (Some b) field = OutOfFuel).
Proof.
  destruct head_cases as (len & n & Hv & Hu & Hn & Hhi). unfold FindNextField. rewrite Hu. cbv zeta. rewrite Hhi.
  set (hi := signed64 (n + len)). unfold slice_range.
  destruct ((0 <=? n) && (n <=? hi)) eqn:E1; [|exists NFault; split_and!; [apply next_faulty; exists len, n; split; [exact Hv|fold hi; lia]|reflexivity|discriminate]].
  destruct (hi <=? zlen b) eqn:E2; [|exists NBeyond; split_and!; [apply next_beyond; exists len, n, hi; unfold zlen in *; split_and!; try exact Hv; try reflexivity; lia|reflexivity|discriminate]].
  cbn [rbind]. change (drop (Z.to_nat n) b) with (at_pos b n). set (x := take (Z.to_nat (hi - n)) (at_pos b n)).
  assert (He : element b x hi) by (apply (element_is b len n hi); unfold zlen in *; [exact Hv|reflexivity|lia|lia]).
  destruct (search_total hi) as [(k & j & H1 & H2 & ->)|[(k & j & p & H1 & H2 & ->)|[(k & j & H1 & H2 & ->)|(k & j & k2 & H1 & H2 & H3)]]].
  - exists (Last x). split_and!; [eapply next_last; eassumption|reflexivity|discriminate].
  - exists (More x (at_pos b p)). split_and!; [eapply next_more; eassumption|reflexivity|discriminate].
  - exists NFault. split_and!; [eapply next_fails; eassumption|reflexivity|discriminate].
  - exists NLoops. rewrite H3. split_and!; [eapply next_loops; eassumption|reflexivity|]. intros _ fuel. rewrite H3. reflexivity.
Qed.

Lemma find_settles k i r : find_loop k b field i = r -> r <> OutOfFuel -> find_loop (fuel_of b) b field i = r.
Proof.
  intros He Hr. destruct (search_total i) as [(a & j & H1 & H2 & H)|[(a & j & p & H1 & H2 & H)|[(a & j & H1 & H2 & H)|(a & j & k2 & H1 & H2 & H3)]]].
  4: congruence.
  all: destruct (decide (k <= fuel_of b)%nat) as [Hk|Hk];
    [rewrite (find_mono k) by (try exact Hk; congruence); exact He|
     rewrite <- He; symmetry; apply find_mono; [lia|congruence]].
Qed.

Lemma next_find r : next field b r -> FindNextField (fuel_of b) (Some b) field = find_result r.
Proof.
  destruct head_cases as (len & n & Hv & Hu & Hn & Hhi). unfold FindNextField. rewrite Hu. cbv zeta. rewrite Hhi.
  assert (HE : forall x hi, element b x hi -> hi = signed64 (n + len) /\ slice_range b n (signed64 (n + len)) = Ok x).
  { intros x hi He. destruct He as [len' n' hi Hv' -> H1 H2]. destruct (varint_at_det _ _ _ _ _ Hb Hv Hv') as [<- <-].
    split; [reflexivity|]. unfold slice_range. replace ((0 <=? n) && (n <=? _)) with true by lia. fold (zlen b) in H2.
    replace (_ <=? zlen b) with true by lia. reflexivity. }
  intros [x hi k i p He Hs Hf|x hi k i He Hs Hf|(len' & n' & hi & Hv' & -> & H1 & H2)|(len' & n' & Hv' & H1)|x hi k i He Hs Hf|x hi k i k2 He Hs Hc].
  - destruct (HE _ _ He) as [-> ->]. cbn [rbind].
    rewrite (find_settles (k + 1) _ (Ok (Some (at_pos b p)))); [reflexivity| |discriminate]. rewrite (skip_many_loop _ _ _ Hs). apply find_hit, Hf.
  - destruct (HE _ _ He) as [-> ->]. cbn [rbind].
    rewrite (find_settles (k + 1) _ (Ok None)); [reflexivity| |discriminate]. rewrite (skip_many_loop _ _ _ Hs). apply find_end, Hf.
  - destruct (varint_at_det _ _ _ _ _ Hb Hv Hv') as [<- <-]. fold (zlen b) in H2. unfold slice_range.
    replace ((0 <=? n) && (n <=? _)) with true by lia. replace (_ <=? zlen b) with false by lia. reflexivity.
  - destruct (varint_at_det _ _ _ _ _ Hb Hv Hv') as [<- <-]. unfold slice_range.
    replace ((0 <=? n) && (n <=? _)) with false by lia. reflexivity.
  - destruct (HE _ _ He) as [-> ->]. cbn [rbind].
    rewrite (find_settles (k + 1) _ Panic); [reflexivity| |discriminate]. rewrite (skip_many_loop _ _ _ Hs). apply find_fail, Hf.
  - destruct (HE _ _ He) as [-> ->]. cbn [rbind].
    destruct (find_loop (fuel_of b) b field _) as [a| | |] eqn:Ef; [exfalso..|reflexivity];
    (pose proof (find_mono (fuel_of b) (k + fuel_of b) _ ltac:(lia) ltac:(rewrite Ef; discriminate)) as Hm;
     rewrite (skip_many_loop _ _ _ Hs), (cycle_diverges _ _ Hc), Ef in Hm; discriminate).
Qed.

Lemma next_det r r' : next field b r -> next field b r' -> r = r'.
Proof.
  intros H1 H2. pose proof (next_find r H1) as E1. rewrite (next_find r' H2) in E1.
  destruct r, r'; cbn in E1; congruence.
Qed.

(** What is left behind a tag of a field other than 0 is shorter. *)
Lemma more_shorter x rest : 1 <= field -> next field b (More x rest) -> (length rest < length b)%nat /\ Forall is_byte rest.
Proof.
  intros Hf H. inversion H as [x' hi k i p He Hs (tag & (Hi & n & Hv & ->) & Hp & Ht)| | | | |]; subst.
  split; [|apply at_bytes, Hb]. rewrite skipn_length.
  pose proof (varint_at_small _ _ _ (at_bytes b i Hb) Hv) as (Hv0 & _ & _ & Hn).
  assert (0 < n). { destruct (Z.lt_ge_cases 0 n) as [|Hle]; [assumption|]. rewrite Hn in Hf by exact Hle. change (0 / 8) with 0 in Hf. lia. }
  lia.
Qed.
End Find.

Lemma more_small field b x rest : next field b (More x rest) -> (length rest <= length b)%nat.
Proof. intros H. inversion H; subst. rewrite skipn_length. lia. Qed.

Definition end_result {A} (e : ending) (l : A) : res A :=
  match e with EDone => Ok l | EBeyond => PastLen | EFault => Panic | ELoops => OutOfFuel end.

Lemma delivers_total field : 1 <= field -> forall n b, (length b < n)%nat -> Forall is_byte b -> Z.of_nat (length b) < 2 ^ 62 ->
  exists xs e, delivers field b xs e /\ (length xs <= length b + 1)%nat.
Proof.
  intros Hf. induction n as [|n IH]; intros b Hn Hb Hl; [lia|].
  destruct (FindNextField_total field b Hb Hl) as (r & Hr & _ & _). destruct r as [x rest|x| | |].
  - destruct (more_shorter field b Hb x rest Hf Hr) as [Hs Hbr].
    destruct (IH rest ltac:(lia) Hbr ltac:(lia)) as (xs & e & He & Hlen). exists (x :: xs), e. split; [econstructor; eassumption|].
    cbn [length]. lia.
  - exists [x], EDone. split; [constructor; exact Hr|cbn; lia].
  - exists [], EBeyond. split; [constructor; exact Hr|cbn; lia].
  - exists [], EFault. split; [constructor; exact Hr|cbn; lia].
  - exists [], ELoops. split; [constructor; exact Hr|cbn; lia].
Qed.

Lemma delivers_det field b xs e : delivers field b xs e -> Forall is_byte b -> Z.of_nat (length b) < 2 ^ 62 ->
  forall xs' e', delivers field b xs' e' -> xs' = xs /\ e' = e.
Proof.
  induction 1 as [b x rest xs e Hx He IH|b x Hx|b Hx|b Hx|b Hx]; intros Hb Hl xs' e' H';
    destruct H' as [b x' rest' xs' e' Hx' He'|b x' Hx'|b Hx'|b Hx'|b Hx'];
    pose proof (next_det field b Hb Hl _ _ Hx Hx') as E; try discriminate; try (split; [congruence|reflexivity]).
  injection E as <- <-. pose proof (more_small _ _ _ _ Hx).
  assert (Hbr : Forall is_byte rest). { inversion Hx; subst. apply at_bytes, Hb. }
  destruct (IH Hbr ltac:(lia) _ _ He') as [-> ->]. auto.
Qed.

Lemma delivers_iterate field b xs e : delivers field b xs e -> Forall is_byte b -> Z.of_nat (length b) < 2 ^ 62 ->
  forall mt m n, (length xs < n)%nat ->
  iterate n mt (Some b) field m = let* l := decode_each mt m xs in end_result e l.
Proof.
  induction 1 as [b x rest xs e Hx He IH|b x Hx|b Hx|b Hx|b Hx]; intros Hb Hl mt m n Hn;
    (destruct n as [|n]; [cbn in Hn; lia|]); cbn [iterate]; unfold it_Next; cbn [find_fuel];
    rewrite (next_find field b Hb Hl _ Hx); cbn [find_result rbind]; try reflexivity.
  - cbn [decode_each]. destruct (m_Decode mt m x) as [[err m']| | |]; cbn [rbind]; try reflexivity.
    pose proof (more_small _ _ _ _ Hx).
    assert (Hbr : Forall is_byte rest). { inversion Hx; subst. apply at_bytes, Hb. }
    cbn [length] in Hn. rewrite IH by (try assumption; lia). destruct (decode_each mt m' xs) as [l| | |]; cbn [rbind]; try reflexivity.
    destruct e; reflexivity.
  - cbn [decode_each]. destruct (m_Decode mt m x) as [[err m']| | |]; cbn [rbind]; try reflexivity.
    destruct n as [|n]; [cbn in Hn; lia|]. cbn. reflexivity.
Qed.

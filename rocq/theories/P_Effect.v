(** * Property C73: the exact effect of setters and appends on memory *)
From Verif Require Import VarintFacts RecFacts Heap HeapApi Core HeapFacts HeapSet HeapExec HeapAlloc HeapStable.
From Verif Require Import Spec SpecScan SpecFind SpecPos SpecMem ApiFacts Core6 OffsetsFacts PosFacts HeapEffect P_Pos Demo.
From Coq Require Import ZifyBool.

(** The struct [h] in memory [σ] was reached by the calls [cs] (C72) and is in the
    state [s] of the machine of SpecPos.v. *)
Definition reached (mt : mtype) (cs : list mutation) (σ : mem) (h : hmsg) (s : pstate) : Prop :=
  let n := Z.of_nat (alen mt) in
  n <= 2 ^ 29 /\ Forall (mutation_ok n) cs /\ hwf σ h /\
  mutates_all n (reps mt) pempty cs (Reached s) /\ p_run mt (msg_zero mt) cs = Ok (abs σ h).

(** Where the message is afterwards. *)
Definition located (σ : mem) (b b' : option slice) (stay : bool) : Prop :=
  if stay then exists t t', b = Some t /\ b' = Some t' /\ sarr t' = sarr t /\ soff t' = soff t /\ scap t' = scap t
  else exists t', b' = Some t' /\ arrs σ !! sarr t' = None.

(** The arrays that existed before: those cells of one of them that are the window
    of [b] are now [W], all other cells are as they were. *)
Definition written (σ σ' : mem) (b : option slice) (W : list Z) : Prop :=
  length W = length (window σ b) /\
  forall a l, arrs σ !! a = Some l ->
    arrs σ' !! a = Some
      match b with
      | Some t => if decide (a = sarr t) then firstn (Z.to_nat (soff t)) l ++ W ++ skipn (Z.to_nat (soff t + scap t)) l else l
      | None => l
      end.

Lemma reached_inv mt cs σ h s : reached mt cs σ h s -> mutations_size cs < 2 ^ 62 -> pinv mt (mutations_size cs) (abs σ h) s.
Proof.
  intros (Hn & Hok & _ & Hm & Hr) Hsz.
  destruct (run_sound mt Hn cs 0 (msg_zero mt) pempty (pinv_zero mt) Hok ltac:(rewrite Z.add_0_l; exact Hsz)) as [_ H].
  destruct (H _ Hm) as (m & E & Hi). rewrite Hr in E. injection E as <-. rewrite Z.add_0_l in Hi. exact Hi.
Qed.

Lemma pieces_unique f w tb lb x tb' lb' x' : pieces f w tb lb x -> pieces f w tb' lb' x' -> tb' = tb /\ lb' = lb /\ x' = x.
Proof.
  intros [x1 t1 l1 [_ H1] -> H2|t1 x1 [_ H1] Hw H2]; intros [x2 t2 l2 [_ H3] E H4|t2 x2 [_ H3] Hw' H4].
  - injection E as <-. split_and!; [eapply minimal_varint_unique; eassumption|eapply minimal_varint_unique; eassumption|reflexivity].
  - cbn in Hw'. lia.
  - subst. cbn in Hw. lia.
  - split_and!; [eapply minimal_varint_unique; eassumption|reflexivity|eapply canonical_payload_unique; eassumption].
Qed.

Lemma pieces_canonical f w tb lb x : pieces f w tb lb x -> (forall y, w = WBytes y -> Forall is_byte y) -> encodes f w tb (lb ++ x).
Proof.
  intros [x1 t1 l1 H1 -> H2|t1 x1 H1 Hw H2] Hb; (split; [exact H1|]); [|exact H2]. exists l1. split_and!; auto.
Qed.

Lemma in_type_bytes T v : in_type T v -> forall y, wire_of T v = WBytes y -> Forall is_byte y.
Proof. destruct T, v as [?|?|?|[?|]]; cbn; intros H y E; try discriminate; try contradiction; injection E as <-; auto. Qed.

Lemma placed_located σ σ' b b' (tb lb x : list Z) n (W : list Z) : tb <> [] -> length W = length (window σ b) ->
  at_place σ σ' b b' (if stays (length W - Z.to_nat n) [tb; lb; x] then Some (n + zlen (concat [tb; lb; x])) else None) ->
  located σ b b' (stays (length W - Z.to_nat n) [tb; lb; x]).
Proof.
  intros Htb HW. destruct (stays _ _) eqn:E; cbn [at_place located].
  - destruct b as [t|].
    + intros [-> _]. exists t. eexists. split_and!; reflexivity.
    + intros _. exfalso. unfold stays in E. rewrite HW in E. cbn in E. destruct tb; [done|]. cbn in E. discriminate.
  - intros [_ H]. exact H.
Qed.

Section Single.
Context (mt : mtype) (M : Z) (σ : mem) (h : hmsg) (s : pstate).
Local Notation n := (Z.of_nat (alen mt)).
Hypothesis (Hn : n <= 2 ^ 29) (Hinv : pinv mt M (abs σ h) s) (Hwf : hwf σ h).

Lemma buf_len : hlen (h_buf h) = plen s /\ sbytes σ (h_buf h) = pbytes s.
Proof.
  destruct Hinv as (_ & _ & Hb & _). cbn in Hb. split; [|exact Hb]. rewrite <- (sbytes_length σ _ (proj1 Hwf)), Hb. reflexivity.
Qed.

Lemma buf_cap : (length (pbytes s) <= length (window σ (h_buf h)))%nat.
Proof.
  destruct buf_len as [Hl Hb]. pose proof (window_len σ _ (proj1 Hwf)) as HW. rewrite <- Hb. pose proof (sbytes_length σ _ (proj1 Hwf)) as Hs.
  unfold zlen in *. pose proof (proj1 Hwf) as H. destruct (h_buf h) as [t|]; cbn [hlen hcap] in *; [|lia]. destruct H as (l & _ & H1 & H2 & H3). lia.
Qed.

Lemma single_effect grow f T v sv vl tb σ' h' s' W' stay :
  0 <= f < n -> in_type T v -> M + mutation_size (PSet f T v) < 2 ^ 62 -> src_clear σ (h_buf h) sv ->
  put_uvarint MaxVarintLen64 (make_tag f (wire_type (wire_of T v))) = Ok tb ->
  pieces f (wire_of T v) tb vl (src_bytes σ sv) -> sets T f v s (Reached s') ->
  hsetSingle grow σ h f (wire_type (wire_of T v)) vl sv = Ok (σ', h') ->
  leaves T f v s (window σ (h_buf h)) W' stay ->
  written σ σ' (h_buf h) W' /\ located σ (h_buf h) (h_buf h') stay.
Proof.
  intros Hf Hin HM Hv Hput Hpc Hset Hcall Hlv. destruct buf_len as [Hlen Hbytes].
  assert (Hvs : 0 <= pval_size v) by (destruct v as [|?|?|[?|]]; cbn; lia).
  assert (HM62 : M < 2 ^ 62) by (revert HM; cbn [mutation_size]; lia).
  assert (Hl62 : hlen (h_buf h) < 2 ^ 62) by (rewrite Hlen; destruct Hinv as (_ & _ & _ & _ & Hl & _); lia).
  pose proof (pinv_range _ _ _ _ _ Hinv Hf) as Hr. pose proof Hinv as (Ht & Howf & _ & Hb & Hl & Hpos).
  destruct (Hpos f Hf) as [Hof Hpf]. pose proof (offsets_get_eq (hoffs σ h) f Howf Hr) as Hget. cbn [abs moff] in Hof. rewrite Hof in Hget.
  assert (Htb : tb <> []).
  { assert (Hm : minimal_tag_enc (f, wire_of T v) tb) by (destruct Hpc; assumption). destruct Hm as [_ Hm]. apply (minimal_small mt) in Hm as [Hm _]. intros E. rewrite E in Hm. cbn in Hm. lia. }
  assert (Hlen2 : length (pbytes s) = Z.to_nat (hlen (h_buf h))) by (rewrite Hlen; unfold plen; lia).
  pose proof buf_cap as Hcap.
  destruct Hlv as [tb1 lb1 x1 Hpc1 Hp|p tb1 lb1 x1 Hpc1 Hp Hpl Hocc|p k tb1 lb1 x1 b e nn Hpc1 Hp Hpl Hocc Hne Eb Ee Hbe Hel Enn];
    destruct (pieces_unique _ _ _ _ _ _ _ _ Hpc Hpc1) as (-> & -> & ->); rewrite Hp in Hget.
  - assert (Hnew : hset_new grow σ h f tb vl sv = Ok (σ', h')).
    { revert Hcall. unfold hsetSingle. rewrite Hput, rbind_Ok, Hget, rbind_Ok. auto. }
    assert (Hpl : placing σ σ (h_buf h) (h_buf h) (window σ (h_buf h)) (hlen (h_buf h))).
    { pose proof (proj1 Hwf) as Hs. split; [apply effect_refl, Hs|]. split; [apply window_len, Hs|].
      destruct (h_buf h) as [[a o l c]|]; cbn; [|split; [auto|lia]]. destruct Hs as (? & _ & _ & H & _). cbn in H. auto. }
    destruct (hset_new_effect _ _ _ _ _ _ _ _ _ _ _ _ _ (proj1 Hwf) Hpl Hv Hnew) as [G1 G2]. rewrite Hlen2. split; [split; [apply added_length; rewrite <- Hlen2; lia|exact G1]|].
    eapply placed_located; [exact Htb|reflexivity|exact G2].
  - specialize (Hpf p Hp). destruct (occupies_old_len mt T v M _ s p _ Hinv HM62 Hin ltac:(lia) Hocc) as [Hol _]. cbn [abs mbuf] in Hol.
    destruct (same_effect grow σ h f _ vl sv p _ tb σ' h' Hwf Hv Hput Hget ltac:(lia) Hl62 Hol) as [-> G]; [rewrite app_length; unfold zlen; lia|exact Hcall|].
    rewrite Hlen in G. split.
    { split; [|exact G]. rewrite put_overw. apply overw_length. rewrite firstn_length. unfold plen in *. lia. } cbn [located]. pose proof (get_buf_some _ _ _ _ Hwf Hget) as Hnn.
    destruct (h_buf h) as [t|]; [|done]. exists t, t. auto.
  - specialize (Hpf p Hp). destruct (occupies_old_len mt T v M _ s p _ Hinv HM62 Hin ltac:(lia) Hocc) as [Hol _]. cbn [abs mbuf] in Hol.
    destruct (other_effect grow σ h f _ vl sv p k tb b e σ' h' Hwf Hv Hput Hget ltac:(lia) Hl62 Hol) as (G1 & G2 & G3);
      [rewrite app_length in Hne; unfold zlen; lia|exact Eb|exact Ee|exact Hbe|lia|exact Hcall|].
    rewrite Hbytes, Hlen in *. rewrite Enn. rewrite <- G3. split; [split; [rewrite added_length; unfold plen in *; lia|exact G1]|]. eapply placed_located; [exact Htb|exact G3|exact G2].
Qed.

Lemma leaves_total T f v s' tb lb x W : pieces f (wire_of T v) tb lb x -> in_type T v -> sets T f v s (Reached s') -> exists W' stay, leaves T f v s W W' stay.
Proof.
  intros Hpc Hin Hset. pose proof (pieces_canonical _ _ _ _ _ Hpc (in_type_bytes _ _ Hin)) as [He1 He2].
  inversion Hset as [tb1 db1 He Hp|p tb1 db1 He Hp Hpl Hk|p k tb1 db1 b e He Hp Hpl Hk Hne Eb Ee Hbe Hel|p k tb1 db1 b e He Hp Hpl Hk Hne Eb Ee Hbe|p k tb1 db1 b e He Hp Hpl Hk Hne Eb Ee Hbe|p Hp Hpl];
    destruct (enc_unique _ _ _ _ _ _ He He1 He2) as [<- <-].
  - eexists _, _. eapply leaves_first; eassumption.
  - eexists _, _. eapply leaves_same; eassumption.
  - eexists _, _. eapply leaves_other; try eassumption. reflexivity.
Qed.
End Single.

(** The pieces the setters hand to setSingle. *)
Lemma set_args_pieces f T v tb : in_type T v -> pval_size v < 2 ^ 63 -> minimal_tag_enc (f, wire_of T v) tb ->
  exists vl x, set_args T v = Ok (wire_type (wire_of T v), vl, x) /\ pieces f (wire_of T v) tb vl x.
Proof.
  intros Hin Hsz Htag. destruct (set_args_canonical T v Hin Hsz) as (vl & x & Ea & Hc). exists vl, x. split; [exact Ea|].
  assert (Hby : forall y l, wire_of T v = WBytes y -> (let* valLen := put_uvarint MaxVarintLen64 (u64 (zlen y)) in Ok (WireBytes, valLen, y)) = Ok (l, vl, x) -> pval_size v = zlen y ->
    pieces f (wire_of T v) tb vl x).
  { intros y l Ew E Hy. rewrite Hy in Hsz. unfold zlen in *. rewrite u64_small in E by (revert Hsz; pows; lia).
    destruct (put_min MaxVarintLen64 (Z.of_nat (length y))) as (bs & Hp & Hm); [revert Hsz; pows; lia|change (2 ^ (7 * Z.of_nat MaxVarintLen64)) with 1180591620717411303424; revert Hsz; pows; lia|unfold MaxVarintLen64; lia|].
    rewrite Hp in E. cbn [rbind] in E. injection E as _ <- <-. apply pieces_bytes; assumption. }
  assert (Hot : forall w, wire_of T v = w -> vl = [] -> wire_type w <> 2 -> pieces f (wire_of T v) tb vl x).
  { intros w <- -> Hw. apply pieces_other; assumption. }
  destruct T, v as [bv|z|y|[y|]]; cbn [in_type] in Hin; try contradiction; cbn [set_args wire_of] in *;
    try (eapply Hby; [reflexivity|exact Ea|reflexivity]);
    (eapply Hot; [reflexivity| |cbn; lia]);
    repeat match type of Ea with context [rbind ?p _] => destruct p; cbn [rbind] in Ea; try discriminate end; injection Ea; congruence.
Qed.

(** ** The theorems *)

(** A setter with a value outside the message's memory, on a struct reached by any
    history over any bytes: every array that existed before is known cell by cell
    afterwards, hence what every slice, string, iterator, sub-message or copy of
    the struct obtained earlier now reads; and whether the message moved. *)
Theorem C73_set grow mt cs σ h s f T v s' :
  reached mt cs σ h s -> 0 <= f < Z.of_nat (alen mt) -> in_type T v ->
  mutations_size cs + mutation_size (PSet f T v) < 2 ^ 62 ->
  sets T f v s (Reached s') ->
  exists σ' h', h_set grow T σ h f v = Ok (σ', h') /\ sbytes σ' (h_buf h') = pbytes s' /\
    (exists W' stay, leaves T f v s (window σ (h_buf h)) W' stay) /\
    forall W' stay, leaves T f v s (window σ (h_buf h)) W' stay ->
      written σ σ' (h_buf h) W' /\ located σ (h_buf h) (h_buf h') stay.
Proof.
  intros HR Hf Hin HM Hset.
  assert (Hvs : 0 <= pval_size v) by (destruct v as [|?|?|[?|]]; cbn; lia).
  assert (HM1 : mutations_size cs < 2 ^ 62) by (revert HM; cbn [mutation_size]; lia).
  pose proof (reached_inv _ _ _ _ _ HR HM1) as Hinv. destruct HR as (Hn & _ & Hwf & _).
  destruct (set_sound mt Hn _ _ s T f v Hinv Hf Hin HM _ Hset) as (m' & Hm & Hinv').
  pose proof (h_set_refines grow T σ h f v Hwf) as Hr. rewrite Hm in Hr. destruct Hr as (σ' & h' & Hcall & Habs & _).
  exists σ', h'. split; [exact Hcall|].
  split. { destruct Hinv' as (_ & _ & Hb & _). rewrite <- Habs in Hb. exact Hb. }
  destruct (tag_bytes mt Hn f (wire_of T v) Hf) as (tb & Hput & Htag).
  assert (Hcs : 0 <= mutations_size cs) by (destruct Hinv as (_ & _ & _ & _ & Hl & _); unfold plen in Hl; lia).
  destruct (set_args_pieces f T v tb Hin) as (vl & x & Ea & Hpc); [revert HM; cbn [mutation_size]; change (2 ^ 62) with 4611686018427387904; pows; lia|exact Htag|].
  split; [eapply leaves_total; eassumption|].
  intros W' stay Hlv. unfold h_set in Hcall. rewrite Ea in Hcall. cbn [rbind] in Hcall.
  eapply (single_effect mt _ σ h s Hinv Hwf grow f T v (Scratch x)); eauto. exact I.
Qed.

(** A setter whose argument is a slice or string anywhere in memory outside the
    message's array window. *)
Theorem C73_set_view grow mt cs σ h s f a s' :
  reached mt cs σ h s -> 0 <= f < Z.of_nat (alen mt) ->
  swf σ a -> (forall i j, in_bytes a i j -> ~ in_window (h_buf h) i j) -> Forall is_byte (sbytes σ a) ->
  let v := VBytes (Some (sbytes σ a)) in
  mutations_size cs + mutation_size (PSet f PBytes v) < 2 ^ 62 ->
  sets PBytes f v s (Reached s') ->
  exists σ' h', h_set_view grow σ h f a = Ok (σ', h') /\ sbytes σ' (h_buf h') = pbytes s' /\
    (exists W' stay, leaves PBytes f v s (window σ (h_buf h)) W' stay) /\
    forall W' stay, leaves PBytes f v s (window σ (h_buf h)) W' stay ->
      written σ σ' (h_buf h) W' /\ located σ (h_buf h) (h_buf h') stay.
Proof.
  intros HR Hf Ha Hap Hby v HM Hset.
  assert (HM1 : mutations_size cs < 2 ^ 62) by (revert HM; unfold v; cbn [mutation_size pval_size]; lia).
  pose proof (reached_inv _ _ _ _ _ HR HM1) as Hinv. destruct HR as (Hn & _ & Hwf & _).
  assert (Hin : in_type PBytes v) by exact Hby.
  destruct (set_sound mt Hn _ _ s PBytes f v Hinv Hf Hin HM _ Hset) as (m' & Hm & Hinv').
  pose proof (h_set_view_refines grow σ h f a Hwf Ha) as Hr. fold v in Hr. rewrite Hm in Hr.
  destruct Hr as (σ' & h' & Hcall & Habs & _); [intros i j Hi Hsp; apply (Hap i j Hi); apply spare_window with σ; [apply Hwf|exact Hsp]|auto|].
  exists σ', h'. split; [exact Hcall|].
  split. { destruct Hinv' as (_ & _ & Hb & _). rewrite <- Habs in Hb. exact Hb. }
  destruct (tag_bytes mt Hn f (wire_of PBytes v) Hf) as (tb & Hput & Htag).
  assert (Hcs : 0 <= mutations_size cs) by (destruct Hinv as (_ & _ & _ & _ & Hl & _); unfold plen in Hl; lia).
  destruct (set_args_pieces f PBytes v tb Hin) as (vl & x & Ea & Hpc); [revert HM; cbn [mutation_size]; change (2 ^ 62) with 4611686018427387904; pows; lia|exact Htag|].
  split; [eapply leaves_total; eassumption|].
  intros W' stay Hlv. cbn [set_args v default] in Ea. unfold h_set_view in Hcall. rewrite <- (sbytes_length σ a Ha) in Hcall.
  unfold default, id in Ea. destruct (put_uvarint MaxVarintLen64 (u64 (zlen (sbytes σ a)))) as [vl'| | |]; cbn [rbind] in Ea, Hcall; try discriminate.
  injection Ea as <- <-.
  eapply (single_effect mt _ σ h s Hinv Hwf grow f PBytes v (View a)); eauto. split; assumption.
Qed.

(** AppendTo, with bytes anywhere outside the message's array window. *)
Theorem C73_append grow mt cs σ h s f a s' :
  reached mt cs σ h s -> 0 <= f < Z.of_nat (alen mt) ->
  src_apart σ a (in_window (h_buf h)) -> Forall is_byte (src_bytes σ a) ->
  let x := src_bytes σ a in
  mutations_size cs + mutation_size (PAppend f x) < 2 ^ 62 ->
  appends f x s (Reached s') ->
  exists σ' h', h_append_bytes grow σ h f a = Ok (σ', h') /\ sbytes σ' (h_buf h') = pbytes s' /\
    (exists W' stay, leaves_append f x s (window σ (h_buf h)) W' stay) /\
    forall W' stay, leaves_append f x s (window σ (h_buf h)) W' stay ->
      written σ σ' (h_buf h) W' /\ located σ (h_buf h) (h_buf h') stay.
Proof.
  intros HR Hf Ha Hby x HM Happ.
  assert (HM1 : mutations_size cs < 2 ^ 62) by (revert HM; cbn [mutation_size]; lia).
  pose proof (reached_inv _ _ _ _ _ HR HM1) as Hinv. destruct HR as (Hn & _ & Hwf & _).
  destruct (append_sound mt Hn _ _ s f x Hinv Hf Hby HM _ Happ) as (m' & Hm & Hinv').
  pose proof (h_append_bytes_refines grow σ h f a Hwf) as Hr. fold x in Hr. rewrite Hm in Hr.
  destruct Hr as (σ' & h' & Hcall & Habs & _).
  { eapply src_apart_weaken; [exact Ha|]. intros i j Hsp. apply spare_window with σ; [apply Hwf|exact Hsp]. }
  exists σ', h'. split; [exact Hcall|].
  split. { destruct Hinv' as (_ & _ & Hb & _). rewrite <- Habs in Hb. exact Hb. }
  destruct (tag_bytes mt Hn f (WBytes x) Hf) as (tb & Hput & Htag).
  destruct (append_enc mt _ _ s f x Hinv HM) as (lb & Hlb & Hmin).
  assert (Hpc : pieces f (WBytes x) tb lb x) by (apply pieces_bytes; auto).
  split; [eexists _, _; constructor; exact Hpc|].
  intros W' stay [tb1 lb1 Hpc1]. destruct (pieces_unique _ _ _ _ _ _ _ _ Hpc Hpc1) as (-> & -> & _).
  unfold h_append_bytes in Hcall. rewrite <- (src_len_ok _ _ _ Ha) in Hcall. fold x in Hcall. rewrite Hlb in Hcall. cbn [rbind] in Hcall.
  destruct (happend_effect grow σ h f WireBytes lb a tb σ' h' Hwf Ha Hput Hcall) as [G1 G2]. fold x in G1, G2.
  destruct (buf_len mt _ σ h s Hinv Hwf) as [Hlen _].
  assert (Hlen2 : length (pbytes s) = Z.to_nat (hlen (h_buf h))) by (rewrite Hlen; unfold plen; lia).
  assert (Hcap : (length (pbytes s) <= length (window σ (h_buf h)))%nat) by (eapply buf_cap; eassumption).
  rewrite Hlen2 in *. split; [split; [apply added_length, Hcap|exact G1]|].
  eapply placed_located; [|reflexivity|exact G2]. destruct Htag as [_ Hm2]. apply (minimal_small mt) in Hm2 as [Hm2 _]. intros ->. cbn in Hm2. lia.
Qed.

(** What a slice, string, iterator, sub-message or copy [t] obtained at any time
    before reads afterwards: where it lies in the cells of the message's array
    window, what was written there; elsewhere, what it read before. *)
Theorem C73_reads σ σ' b W t i :
  written σ σ' b W -> swf σ b -> swf σ (Some t) -> (i < Z.to_nat (slen t))%nat ->
  (~ in_window b (sarr t) (soff t + Z.of_nat i) -> sbytes σ' (Some t) !! i = sbytes σ (Some t) !! i) /\
  (in_window b (sarr t) (soff t + Z.of_nat i) -> sbytes σ' (Some t) !! i = W !! Z.to_nat (soff t + Z.of_nat i - default 0 (option_map soff b))).
Proof.
  intros [HW Hw] Hb (l & Hl & Ht) Hi. specialize (Hw _ _ Hl). unfold sbytes, arr_of. rewrite Hl, Hw. cbn [default id].
  rewrite !lookup_take, !lookup_drop by lia. unfold default, id. pose proof (window_len σ b Hb) as HwW.
  destruct b as [u|]; cbn [in_window option_map]; [|split; [reflexivity|contradiction]].
  destruct Hb as (l' & Hl' & Hu). cbn [hcap] in HwW. unfold zlen in *.
  destruct (decide (sarr t = sarr u)) as [E|NE].
  - rewrite E in Hl. rewrite Hl in Hl'. injection Hl' as <-.
    assert (Hfl : length (firstn (Z.to_nat (soff u)) l) = Z.to_nat (soff u)) by (rewrite firstn_length; lia).
    split; intros H.
    + assert (soff t + Z.of_nat i < soff u \/ soff u + scap u <= soff t + Z.of_nat i) as [Hc|Hc] by lia.
      * rewrite lookup_app_l by lia. apply lookup_take. lia.
      * rewrite lookup_app_r by lia. rewrite lookup_app_r by lia. rewrite lookup_drop. f_equal. lia.
    + rewrite lookup_app_r by lia. rewrite lookup_app_l by lia. f_equal. lia.
  - split; [reflexivity|]. intros [H _]. done.
Qed.

(** Case: field 1 = 5 and field 2 = "hi" in an array with room for four more bytes;
    a client holds the string.  Setting field 1 to 300 moves the bytes of field 2
    to the front and writes the new record behind them: the held string now reads
    [8; 172].  Setting field 2 to a string of eight bytes writes tag and length in
    place, then finds no room for the string and moves the message: the held
    string reads what it read.  A second held slice, the caller's, is elsewhere. *)
Definition eff_cs : list mutation := [PSet 1 PInt32 (VNum 5); PSet 2 PString (VString [104; 105])].
Definition eff_s : pstate := mkP [8; 5; 18; 2; 104; 105] (pset (pset (fun _ => None) 1 1) 2 3).
Definition eff_put := h_put (fun _ => 4%nat) (mkMem ∅ ∅) match p_run pos_mt (msg_zero pos_mt) eff_cs with Ok m => m | _ => msg_zero pos_mt end.
Definition eff_long : list Z := [65; 66; 67; 68; 69; 70; 71; 72].
Lemma eff_pieces_num f v w : 0 <= f < 5 -> w = WVarint v -> 0 <= v < 128 -> pieces f w [8 * f] [] [v].
Proof.
  intros Hf -> Hv. apply pieces_other; [|cbn; lia|apply small_varint; lia]. split; [cbn; lia|]. cbn [fst snd wire_type].
  replace (8 * f + 0) with (8 * f) by lia. apply small_varint. lia.
Qed.
Lemma eff_pieces_bytes f x w : 0 <= f < 5 -> w = WBytes x -> Z.of_nat (length x) < 128 -> pieces f w [8 * f + 2] [Z.of_nat (length x)] x.
Proof.
  intros Hf -> Hx. apply pieces_bytes; [|reflexivity|apply small_varint; lia]. split; [cbn; lia|]. cbn [fst snd wire_type]. apply small_varint. lia.
Qed.
Lemma eff_short v r : 0 <= v < 128 -> varint_at (v :: r) v 1.
Proof.
  intros Hv. left. apply (reads_fits v [v] r). apply small_varint, Hv.
Qed.
Example C73_case : exists d,
  reached pos_mt eff_cs eff_put.1 eff_put.2 eff_s /\
  window eff_put.1 (h_buf eff_put.2) = [8; 5; 18; 2; 104; 105; 0; 0; 0; 0] /\
  h_get PString eff_put.1 eff_put.2 2 = Ok (HStr (Some d)) /\ sbytes eff_put.1 (Some d) = [104; 105] /\
  leaves PInt32 1 (VNum 300) eff_s [8; 5; 18; 2; 104; 105; 0; 0; 0; 0] [18; 2; 104; 105; 8; 172; 2; 0; 0; 0] true /\
  (exists σ' h', h_set (fun _ _ n => n) PInt32 eff_put.1 eff_put.2 1 (VNum 300) = Ok (σ', h') /\ sbytes σ' (Some d) = [8; 172]) /\
  leaves PString 2 (VString eff_long) eff_s [8; 5; 18; 2; 104; 105; 0; 0; 0; 0] [8; 5; 18; 8; 104; 105; 0; 0; 0; 0] false /\
  (exists σ' h', h_set (fun _ _ n => n) PString eff_put.1 eff_put.2 2 (VString eff_long) = Ok (σ', h') /\ sbytes σ' (Some d) = [104; 105] /\ option_map sarr (h_buf h') <> option_map sarr (h_buf eff_put.2)) /\
  leaves_append 4 [9; 9] eff_s [8; 5; 18; 2; 104; 105; 0; 0; 0; 0] [8; 5; 18; 2; 104; 105; 34; 2; 9; 9] true.
Proof.
  eexists. split.
  { unfold eff_put. destruct (h_put (fun _ => 4%nat) (mkMem ∅ ∅) match p_run pos_mt (msg_zero pos_mt) eff_cs with Ok m => m | _ => msg_zero pos_mt end) as [σ h] eqn:E.
    destruct (h_put_ok _ _ _ _ _ E) as (_ & Hw & Ha & _). cbn [fst snd]. split; [cbn; lia|]. split.
    { repeat constructor; cbn; unfold is_byte; lia. }
    split; [exact Hw|]. split; [|rewrite Ha; vm_compute; reflexivity].
    unfold eff_cs. eapply mutates_more.
    { apply (set_first PInt32 1 (VNum 5) pempty [8] [5]); [|reflexivity].
      apply (pieces_canonical 1 (wire_of PInt32 (VNum 5)) [8] [] [5]); [apply (eff_pieces_num 1 5); [lia|reflexivity|lia]|discriminate]. }
    eapply mutates_more; [|apply mutates_none].
    apply (set_first PString 2 (VString [104; 105]) (mkP [8; 5] (pset (fun _ => None) 1 1)) [18] [2; 104; 105]); [|reflexivity].
    apply (pieces_canonical 2 (wire_of PString (VString [104; 105])) [18] [2] [104; 105]); [apply (eff_pieces_bytes 2 [104; 105]); [lia|reflexivity|cbn; lia]|].
    intros y [= <-]. repeat constructor; unfold is_byte; lia. }
  split; [vm_compute; reflexivity|]. split; [vm_compute; reflexivity|]. split; [vm_compute; reflexivity|].
  split.
  { apply (leaves_other PInt32 1 (VNum 300) eff_s [8; 5; 18; 2; 104; 105; 0; 0; 0; 0] 1 1 [8] [] [172; 2] 0 2 4%nat);
      try reflexivity; try (cbn; lia); try (vm_compute; discriminate); try (vm_compute; split; discriminate).
    - apply pieces_other; [split; [cbn; lia|apply small_varint; cbn; lia]|cbn; lia|]. 
      destruct (put_min MaxVarintLen64 300) as (bs & Hp & Hm); [pows; lia|change (2 ^ (7 * Z.of_nat MaxVarintLen64)) with 1180591620717411303424; lia|unfold MaxVarintLen64; lia|]. vm_compute in Hp. injection Hp as <-. exact Hm.
    - apply occupies_varint with 5; [reflexivity|]. apply (eff_short 5 [18; 2; 104; 105]). lia. }
  split; [eexists _, _; split; vm_compute; reflexivity|].
  split.
  { apply (leaves_other PString 2 (VString eff_long) eff_s [8; 5; 18; 2; 104; 105; 0; 0; 0; 0] 3 3 [18] [8] eff_long 2 6 2%nat);
      try reflexivity; try (cbn; lia); try (vm_compute; discriminate); try (vm_compute; split; discriminate).
    - apply (eff_pieces_bytes 2 eff_long); [lia|reflexivity|cbn; lia].
    - change 3 with (signed64 (1 + 2)). apply occupies_bytes; [reflexivity|]. apply (eff_short 2 [104; 105]). lia. }
  split; [eexists _, _; split_and!; [vm_compute; reflexivity..|vm_compute; discriminate]|].
  apply (leaves_appended 4 [9; 9] eff_s [8; 5; 18; 2; 104; 105; 0; 0; 0; 0] [34] [2]). apply (eff_pieces_bytes 4 [9; 9]); [lia|reflexivity|cbn; lia].
Qed.

Print Assumptions C73_set. Print Assumptions C73_set_view. Print Assumptions C73_append. Print Assumptions C73_reads.

(** * The exact effect of setters and appends on the arrays *)
From Verif Require Import VarintFacts RecFacts Heap HeapApi Core HeapFacts HeapSet HeapExec HeapAlloc HeapStable Spec SpecScan SpecFind SpecPos SpecMem PosFacts OffsetsFacts.
From Coq Require Import ZifyBool.

Definition window (σ : mem) (s : option slice) : list Z :=
  match s with None => [] | Some s => take (Z.to_nat (scap s)) (drop (Z.to_nat (soff s)) (arr_of σ (sarr s))) end.
(** The array [l], number [a], after the cells of the window of [s] have become [W]. *)
Definition rewin (s : option slice) (W : list Z) (a : nat) (l : list Z) : list Z :=
  match s with
  | None => l
  | Some s => if decide (a = sarr s) then take (Z.to_nat (soff s)) l ++ W ++ drop (Z.to_nat (soff s + scap s)) l else l
  end.
Definition effect (σ0 : mem) (s : option slice) (σ : mem) (W : list Z) : Prop :=
  forall a l, arrs σ0 !! a = Some l -> arrs σ !! a = Some (rewin s W a l).

Lemma put_overw W i x : put W i x = overw W i x. Proof. reflexivity. Qed.

Lemma window_len σ s : swf σ s -> zlen (window σ s) = hcap s.
Proof.
  destruct s as [s|]; [|done]. intros (l & Hl & H1 & H2 & H3). unfold window, arr_of, zlen, hcap in *. rewrite Hl. cbn. rewrite take_length, drop_length. lia.
Qed.
Lemma window_bytes σ s : swf σ s -> sbytes σ s = take (Z.to_nat (hlen s)) (window σ s).
Proof.
  destruct s as [s|]; [|done]. intros (l & Hl & H1 & H2 & H3). unfold window, sbytes, hlen. rewrite take_take. f_equal. lia.
Qed.

Lemma effect_refl σ s : swf σ s -> effect σ s σ (window σ s).
Proof.
  intros Hs a l Ha. rewrite Ha. f_equal. destruct s as [s|]; [|done]. unfold rewin, window. destruct (decide _) as [->|]; [|done].
  destruct Hs as (l' & Hl & H1 & H2 & H3). unfold arr_of. rewrite Hl in *. injection Ha as ->. cbn.
  rewrite <- (take_drop (Z.to_nat (soff s)) l) at 1. f_equal.
  rewrite <- (take_drop (Z.to_nat (scap s)) (drop (Z.to_nat (soff s)) l)) at 1. f_equal. rewrite drop_drop. f_equal. lia.
Qed.

Lemma effect_arrs σ0 s σ σ' W : effect σ0 s σ W -> arrs σ' = arrs σ -> effect σ0 s σ' W.
Proof. intros H E a l Ha. rewrite E. apply H, Ha. Qed.

Lemma overw_mid (A B C x : list Z) i k : k = (length A + i)%nat -> (i + length x <= length B)%nat ->
  overw (A ++ B ++ C) k x = A ++ overw B i x ++ C.
Proof.
  intros -> H. unfold overw. rewrite take_app_ge by lia. replace (length A + i - length A)%nat with i by lia.
  rewrite (drop_app_ge A) by lia. replace (length A + i + length x - length A)%nat with (i + length x)%nat by lia.
  rewrite (take_app_le B) by lia. rewrite (drop_app_le B) by lia. rewrite <- !app_assoc. reflexivity.
Qed.

Lemma effect_write σ0 s σ W i x : swf σ0 (Some s) -> effect σ0 (Some s) σ W -> zlen W = scap s -> 0 <= i -> i + zlen x <= scap s ->
  effect σ0 (Some s) (write σ (sarr s) (soff s + i) x) (overw W (Z.to_nat i) x).
Proof.
  intros (l0 & Hl0 & H1 & H2 & H3) He HW Hi Hx a l Ha. unfold write, rewin. cbn [arrs]. destruct (decide (a = sarr s)) as [->|Hne].
  - rewrite lookup_insert. f_equal. change (overw (arr_of σ (sarr s)) (Z.to_nat (soff s + i)) x = take (Z.to_nat (soff s)) l ++ overw W (Z.to_nat i) x ++ drop (Z.to_nat (soff s + scap s)) l).
    unfold arr_of. rewrite (He _ _ Ha). cbn [default]. unfold rewin. rewrite decide_True by done. rewrite Ha in Hl0. injection Hl0 as ->.
    unfold default. apply overw_mid; unfold zlen in *; [rewrite take_length; lia|lia].
  - rewrite lookup_insert_ne by done. rewrite (He _ _ Ha). unfold rewin. rewrite decide_False by done. reflexivity.
Qed.

(** Where the message is: still in the window with [n] bytes, or in a new array. *)
Definition at_place (σ0 σ : mem) (s c : option slice) (pl : option Z) : Prop :=
  match pl with
  | Some n => match s with
              | Some s => c = Some (mkSl (sarr s) (soff s) n (scap s)) /\ 0 <= n <= scap s
              | None => c = None /\ n = 0
              end
  | None => swf σ c /\ exists t, c = Some t /\ arrs σ0 !! sarr t = None
  end.

Lemma effect_dom σ0 s σ W a : effect σ0 s σ W -> arrs σ !! a = None -> arrs σ0 !! a = None.
Proof. intros H E. destruct (arrs σ0 !! a) as [l|] eqn:Ea; [|done]. rewrite (H _ _ Ea) in E. discriminate. Qed.

Lemma effect_alloc σ0 s σ W bs e σ' t : effect σ0 s σ W -> alloc σ bs e = (σ', t) ->
  effect σ0 s σ' W /\ swf σ' (Some t) /\ arrs σ0 !! sarr t = None.
Proof.
  intros He Ea. destruct (alloc_frame _ _ _ _ _ Ea) as (_ & _ & Hw & _ & Hn). unfold alloc in Ea. injection Ea as <- <-.
  split; [|split; [exact Hw|exact (effect_dom _ _ _ _ _ He Hn)]].
  intros a l Ha. cbn [arrs]. rewrite lookup_insert_ne; [apply He, Ha|]. intros Efr. cbn in Hn. rewrite Efr, (He _ _ Ha) in Hn. discriminate.
Qed.

Lemma effect_step grow σ0 s σ W n c p σ' c' : swf σ0 s -> effect σ0 s σ W -> zlen W = hcap s -> at_place σ0 σ s c (Some n) ->
  h_append grow σ c p = (σ', c') ->
  (n + zlen p <= hcap s -> effect σ0 s σ' (overw W (Z.to_nat n) p) /\ at_place σ0 σ' s c' (Some (n + zlen p))) /\
  (hcap s < n + zlen p -> effect σ0 s σ' W /\ at_place σ0 σ' s c' None).
Proof.
  intros Hs He HW Hc. unfold h_append. destruct s as [s|]; cbn [at_place hcap] in *.
  - destruct Hc as [-> Hn]. cbn [hlen slen scap sarr soff]. destruct (Z.leb_spec (n + zlen p) (scap s)).
    + intros [= <- <-]. split; [intros _|lia]. split; [apply effect_write; (done || lia)|]. split; [reflexivity|]. unfold zlen in *. lia.
    + destruct (alloc _ _ _) as [σ1 t] eqn:Ea. intros [= <- <-]. split; [lia|intros _].
      destruct (effect_alloc _ _ _ _ _ _ _ _ He Ea) as (H1 & H2 & H3). split; [exact H1|]. split; [exact H2|eauto].
  - destruct Hc as [-> ->]. cbn [hlen]. destruct (Z.leb_spec (0 + zlen p) 0).
    + intros [= <- <-]. split; [intros _|lia]. assert (zlen p = 0) as -> by (unfold zlen in *; lia). split; [exact He|auto].
    + destruct (alloc _ _ _) as [σ1 t] eqn:Ea. intros [= <- <-]. split; [lia|intros _].
      destruct (effect_alloc _ _ _ _ _ _ _ _ He Ea) as (H1 & H2 & H3). split; [exact H1|]. split; [exact H2|eauto].
Qed.

Lemma effect_moved grow σ0 s σ W c p σ' c' : effect σ0 s σ W -> at_place σ0 σ s c None ->
  h_append grow σ c p = (σ', c') -> effect σ0 s σ' W /\ at_place σ0 σ' s c' None.
Proof.
  intros He [Hw (t & -> & Ht)] E. destruct (h_append_ok _ _ _ _ _ _ Hw E) as (_ & Hw' & _ & _ & _ & _ & _ & Hnn).
  unfold h_append in E. cbn [hlen] in E. destruct (Z.leb_spec (slen t + zlen p) (scap t)).
  - injection E as <- <-. split; [|split; [exact Hw'|eexists; split; [reflexivity|exact Ht]]].
    intros a l Ha. unfold write. cbn [arrs]. rewrite lookup_insert_ne by congruence. apply He, Ha.
  - destruct (alloc _ _ _) as [σ1 t'] eqn:Ea. injection E as <- <-. destruct (effect_alloc _ _ _ _ _ _ _ _ He Ea) as (H1 & H2 & H3).
    split; [exact H1|]. split; [exact H2|eauto].
Qed.

Lemma overw_overw W n p q : (n + length p <= length W)%nat -> overw (overw W n p) (n + length p) q = overw W n (p ++ q).
Proof.
  intros H. unfold overw at 2 3. rewrite app_assoc. unfold overw.
  rewrite take_app_alt by (rewrite app_length, take_length; lia). rewrite drop_app_ge by (rewrite app_length, take_length; lia).
  rewrite app_length, take_length, drop_drop, <- !app_assoc. do 4 f_equal. rewrite app_length. lia.
Qed.
Lemma overw_nil W n : (n <= length W)%nat -> overw W n [] = W.
Proof. intros H. unfold overw. cbn. rewrite Nat.add_0_r. apply take_drop. Qed.

(** A message [c] with [n] bytes in the window, to which pieces are appended, the
    maps possibly changing in between. *)
Inductive appended (grow : policy) : mem -> option slice -> list (list Z) -> mem -> option slice -> Prop :=
| appended_nil σ c : appended grow σ c [] σ c
| appended_cons σ c p σ1 c1 σ2 ps σ3 c3 : h_append grow σ c p = (σ1, c1) -> arrs σ2 = arrs σ1 -> appended grow σ2 c1 ps σ3 c3 ->
    appended grow σ c (p :: ps) σ3 c3.

Lemma at_place_arrs σ0 σ σ' s c pl : arrs σ' = arrs σ -> at_place σ0 σ s c pl -> at_place σ0 σ' s c pl.
Proof. intros E. destruct pl as [n|]; cbn; [done|]. intros [H ?]. split; [|done]. eapply swf_arrs; eauto. Qed.

Lemma appended_moved grow σ0 s σ c ps σ' c' : appended grow σ c ps σ' c' -> forall W, effect σ0 s σ W -> at_place σ0 σ s c None ->
  effect σ0 s σ' W /\ at_place σ0 σ' s c' None.
Proof.
  induction 1 as [|σ c p σ1 c1 σ2 ps σ3 c3 E Ea H IH]; intros W He Hp; [auto|].
  destruct (effect_moved _ _ _ _ _ _ _ _ _ He Hp E) as [He1 Hp1]. apply IH; [eapply effect_arrs; eauto|eapply at_place_arrs; eauto].
Qed.

Lemma appended_effect grow σ0 s σ c ps σ' c' : swf σ0 s -> appended grow σ c ps σ' c' -> forall W n, effect σ0 s σ W -> zlen W = hcap s ->
  at_place σ0 σ s c (Some n) -> 0 <= n <= hcap s ->
  effect σ0 s σ' (added W (Z.to_nat n) ps) /\
  at_place σ0 σ' s c' (if stays (length W - Z.to_nat n) ps then Some (n + zlen (concat ps)) else None).
Proof.
  intros Hs. induction 1 as [|σ c p σ1 c1 σ2 ps σ3 c3 E Ea H IH]; intros W n He HW Hp Hn.
  - unfold added. cbn [placed]. rewrite put_overw, overw_nil by (unfold zlen in *; lia). split; [exact He|].
    change (at_place σ0 σ s c (Some (n + 0))). rewrite Z.add_0_r. exact Hp.
  - destruct (effect_step _ _ _ _ _ _ _ _ _ _ Hs He HW Hp E) as [Hfit Hmove].
    unfold added. cbn [placed]. destruct (Nat.leb_spec (length p) (length W - Z.to_nat n)) as [Hl|Hl].
    + destruct Hfit as [He1 Hp1]; [unfold zlen in *; lia|].
      assert (HW1 : zlen (overw W (Z.to_nat n) p) = hcap s) by (unfold zlen in *; rewrite overw_length; lia).
      destruct (IH (overw W (Z.to_nat n) p) (n + zlen p)) as [He3 Hp3]; [eapply effect_arrs; eauto|exact HW1|eapply at_place_arrs; eauto|unfold zlen in *; lia|].
      unfold added in He3. rewrite put_overw in He3 |- *.
      assert (HWl : length (overw W (Z.to_nat n) p) = length W) by (apply overw_length; unfold zlen in *; lia).
      replace (Z.to_nat (n + zlen p)) with (Z.to_nat n + length p)%nat in * by (unfold zlen; lia).
      rewrite HWl in He3, Hp3. rewrite overw_overw in He3 by (unfold zlen in *; lia).
      replace (length W - (Z.to_nat n + length p))%nat with (length W - Z.to_nat n - length p)%nat in * by lia.
      split; [exact He3|]. unfold stays in *. cbn [concat]. rewrite app_length.
      replace (length p + length (concat ps) <=? length W - Z.to_nat n)%nat with (length (concat ps) <=? length W - Z.to_nat n - length p)%nat by lia.
      unfold zlen in *. rewrite app_length. destruct (_ <=? _)%nat; [|exact Hp3].
      replace (n + Z.of_nat (length p + length (concat ps))) with (n + Z.of_nat (length p) + Z.of_nat (length (concat ps))) by lia. exact Hp3.
    + destruct Hmove as [He1 Hp1]; [unfold zlen in *; lia|].
      destruct (appended_moved _ σ0 s _ _ _ _ _ H W) as [He3 Hp3]; [eapply effect_arrs; eauto|eapply at_place_arrs; eauto|].
      rewrite put_overw, overw_nil by (unfold zlen in *; lia). split; [exact He3|].
      unfold stays. cbn [concat]. rewrite app_length. replace (_ <=? _)%nat with false by lia. exact Hp3.
Qed.

(** The source is read in the memory as it then is; apart from the window it has
    not changed. *)
Lemma rewin_lookup s W a l i : (exists l0, arrs l0 !! sarr s = Some l /\ swf l0 (Some s)) -> zlen W = scap s -> ~ (a = sarr s /\ soff s <= Z.of_nat i < soff s + scap s) ->
  rewin (Some s) W a l !! i = l !! i.
Proof.
  intros (σ0 & Hl & l' & Hl' & H1 & H2 & H3) HW Hn. rewrite Hl in Hl'. injection Hl' as <-. unfold rewin. destruct (decide _) as [->|]; [|done].
  unfold zlen in *. destruct (Z.lt_ge_cases (Z.of_nat i) (soff s)).
  - rewrite lookup_app_l by (rewrite take_length; lia). apply lookup_take. lia.
  - assert (soff s + scap s <= Z.of_nat i) by lia. rewrite app_assoc, lookup_app_r by (rewrite app_length, take_length; lia).
    rewrite app_length, take_length, lookup_drop. f_equal. lia.
Qed.

Lemma effect_apart σ0 s σ W t : swf σ0 s -> effect σ0 s σ W -> zlen W = hcap s -> swf σ0 t ->
  (forall a j, in_bytes t a j -> ~ in_window s a j) -> sbytes σ t = sbytes σ0 t.
Proof.
  intros Hs He HW Ht Hn. destruct t as [t|]; [|done]. destruct Ht as (l & Hl & H1 & H2 & H3). cbn. unfold arr_of. rewrite (He _ _ Hl), Hl. cbn.
  destruct s as [s|]; [|done]. apply list_eq. intros i. rewrite !window_lookup. destruct (Nat.ltb_spec i (Z.to_nat (slen t))); [|done].
  destruct (decide (sarr t = sarr s)) as [E|E]; [|unfold rewin; destruct (decide (sarr t = sarr s)); done].
  apply rewin_lookup; [exists σ0; rewrite <- E; auto|exact HW|]. intros [_ Hj]. apply (Hn (sarr t) (soff t + Z.of_nat i)); cbn; [split; [done|lia]|split; [done|lia]].
Qed.

Lemma put_offs_arrs σ h o σ' h' : put_offs σ h o = (σ', h') -> arrs σ' = arrs σ /\ h_buf h' = h_buf h.
Proof. unfold put_offs. destruct (h_m h), (om o); intros [= <- <-]; auto. Qed.

Definition placing (σ0 σ : mem) (s c : option slice) (W : list Z) (n : Z) : Prop :=
  effect σ0 s σ W /\ zlen W = hcap s /\ at_place σ0 σ s c (Some n) /\ 0 <= n <= hcap s.

Definition src_clear (σ0 : mem) (s : option slice) (v : src) : Prop := src_apart σ0 v (in_window s).

Lemma src_still σ0 s σ W v : swf σ0 s -> effect σ0 s σ W -> zlen W = hcap s -> src_clear σ0 s v -> src_bytes σ v = src_bytes σ0 v.
Proof. intros Hs He HW. destruct v as [|t]; [done|]. intros [Ht Hn]. apply (effect_apart σ0 s σ W); auto. Qed.

Lemma added_length W n ps : (n <= length W)%nat -> length (added W n ps) = length W.
Proof.
  intros Hn. unfold added. rewrite put_overw. apply overw_length.
  enough (length (placed (length W - n) ps) <= length W - n)%nat by lia.
  generalize (length W - n)%nat. clear. induction ps as [|p ps IH]; intros r; cbn; [lia|].
  destruct (Nat.leb_spec (length p) r); cbn; [|lia]. rewrite app_length. specialize (IH (r - length p)%nat). lia.
Qed.

Lemma hset_new_effect grow σ0 s σ h f tag vl v n W σ' h' : swf σ0 s -> placing σ0 σ s (h_buf h) W n -> src_clear σ0 s v ->
  hset_new grow σ h f tag vl v = Ok (σ', h') ->
  effect σ0 s σ' (added W (Z.to_nat n) [tag; vl; src_bytes σ0 v]) /\
  at_place σ0 σ' s (h_buf h') (if stays (length W - Z.to_nat n) [tag; vl; src_bytes σ0 v] then Some (n + zlen (concat [tag; vl; src_bytes σ0 v])) else None).
Proof.
  intros Hs (He & HW & Hp & Hn) Hv. unfold hset_new.
  destruct (h_append grow σ (h_buf h) tag) as [σ1 b1] eqn:E1.
  destruct (offsets_set _ _ _) as [o| | |]; cbn [rbind]; try discriminate.
  destruct (put_offs σ1 _ o) as [σ2 h2] eqn:E2. destruct (put_offs_arrs _ _ _ _ _ E2) as [Ea _].
  destruct (h_append grow σ2 b1 vl) as [σ3 b3] eqn:E3. destruct (h_append grow σ3 b3 (src_bytes σ3 v)) as [σ4 b4] eqn:E4.
  intros [= <- <-]. cbn [put_buf h_buf].
  assert (Hsrc : src_bytes σ3 v = src_bytes σ0 v).
  { assert (Hap : appended grow σ (h_buf h) [tag; vl] σ3 b3) by (eapply appended_cons; [exact E1|exact Ea|eapply appended_cons; [exact E3|reflexivity|constructor]]).
    destruct (appended_effect _ _ _ _ _ _ _ _ Hs Hap W n He HW Hp Hn) as [He3 _].
    apply (src_still σ0 s σ3 _ v Hs He3); [|exact Hv]. unfold zlen in *. rewrite added_length; lia. }
  rewrite Hsrc in E4.
  eapply appended_effect; eauto. eapply appended_cons; [exact E1|exact Ea|eapply appended_cons; [exact E3|reflexivity|eapply appended_cons; [exact E4|reflexivity|constructor]]].
Qed.

Lemma happend_effect grow σ h f typ vl v tag σ' h' : hwf σ h -> src_clear σ (h_buf h) v -> put_uvarint MaxVarintLen64 (make_tag f typ) = Ok tag ->
  happendSingle grow σ h f typ vl v = Ok (σ', h') ->
  let W := window σ (h_buf h) in let n := hlen (h_buf h) in
  effect σ (h_buf h) σ' (added W (Z.to_nat n) [tag; vl; src_bytes σ v]) /\
  at_place σ σ' (h_buf h) (h_buf h') (if stays (length W - Z.to_nat n) [tag; vl; src_bytes σ v] then Some (n + zlen (concat [tag; vl; src_bytes σ v])) else None).
Proof.
  intros Hwf Hv Htag E0 W n. revert E0. unfold happendSingle. rewrite Htag, rbind_Ok. pose proof (proj1 Hwf) as Hs.
  destruct (h_append grow σ (h_buf h) tag) as [σ1 b1] eqn:E1.
  destruct (offsets_get _ _) as [[x ok]| | |]; cbn [rbind]; try discriminate.
  destruct (if ok then _ else _) as [o| | |]; cbn [rbind]; try discriminate.
  destruct (put_offs σ1 _ o) as [σ2 h2] eqn:E2. destruct (put_offs_arrs _ _ _ _ _ E2) as [Ea _].
  destruct (h_append grow σ2 b1 vl) as [σ3 b3] eqn:E3. destruct (h_append grow σ3 b3 (src_bytes σ3 v)) as [σ4 b4] eqn:E4.
  intros [= <- <-]. cbn [put_buf h_buf].
  assert (He := effect_refl σ (h_buf h) Hs). assert (HW := window_len σ (h_buf h) Hs).
  assert (Hp : at_place σ σ (h_buf h) (h_buf h) (Some n)).
  { unfold at_place, n. destruct (h_buf h) as [[a o' l c]|]; cbn; [|auto]. split; [done|]. destruct Hs as (? & _ & _ & H & _). exact H. }
  assert (Hn : 0 <= n <= hcap (h_buf h)).
  { unfold n. destruct (h_buf h) as [[a o' l c]|]; cbn in *; [|lia]. destruct Hs as (? & _ & _ & H & _). exact H. }
  assert (Hsrc : src_bytes σ3 v = src_bytes σ v).
  { assert (Hap : appended grow σ (h_buf h) [tag; vl] σ3 b3) by (eapply appended_cons; [exact E1|exact Ea|eapply appended_cons; [exact E3|reflexivity|constructor]]).
    destruct (appended_effect _ _ _ _ _ _ _ _ Hs Hap W n He HW Hp Hn) as [He3 _].
    apply (src_still σ (h_buf h) σ3 _ v Hs He3); [|exact Hv]. unfold zlen in *. rewrite added_length; unfold W; lia. }
  rewrite Hsrc in E4.
  eapply appended_effect; eauto. eapply appended_cons; [exact E1|exact Ea|eapply appended_cons; [exact E3|reflexivity|eapply appended_cons; [exact E4|reflexivity|constructor]]].
Qed.

Lemma copy_effect σ0 s σ W i y σ' k : swf σ0 (Some s) -> effect σ0 (Some s) σ W -> zlen W = scap s ->
  h_copy σ (Some s) i y = Ok (σ', k) ->
  0 <= i <= slen s /\ k = Z.min (slen s - i) (zlen y) /\ effect σ0 (Some s) σ' (overw W (Z.to_nat i) (take (Z.to_nat k) y)).
Proof.
  intros Hs He HW. unfold h_copy, h_from. destruct (Z.leb_spec 0 i), (Z.leb_spec i (slen s)); cbn [andb rbind]; try discriminate.
  cbn [slen sarr soff]. intros [= <- <-]. split; [lia|]. split; [reflexivity|]. pose proof Hs as (l & _ & H1 & H2 & H3).
  apply effect_write; [done|done|done|lia|]. unfold zlen. rewrite take_length. lia.
Qed.

Lemma same_effect grow σ h f typ vl v p k tag σ' h' : hwf σ h -> src_clear σ (h_buf h) v -> put_uvarint MaxVarintLen64 (make_tag f typ) = Ok tag ->
  offsets_get (hoffs σ h) f = Ok (p, true) -> 0 <= p <= hlen (h_buf h) -> hlen (h_buf h) < 2 ^ 62 ->
  old_len (sbytes σ (h_buf h)) p typ = Ok k -> k = zlen vl + zlen (src_bytes σ v) ->
  hsetSingle grow σ h f typ vl v = Ok (σ', h') ->
  h' = h /\ effect σ (h_buf h) σ' (put (window σ (h_buf h)) (Z.to_nat p) (firstn (Z.to_nat (hlen (h_buf h) - p)) (vl ++ src_bytes σ v))).
Proof.
  intros Hwf Hv Htag Hget Hp Hlen Hold Hk. unfold hsetSingle. rewrite Htag, rbind_Ok, Hget, rbind_Ok, Hold, rbind_Ok.
  rewrite <- (src_len_ok _ _ _ Hv), Hk, Z.eqb_refl.
  pose proof (get_buf_some _ _ _ _ Hwf Hget) as Hnn. pose proof (proj1 Hwf) as Hs. destruct (h_buf h) as [s|]; [|done].
  cbn [hlen] in *. set (W := window σ (Some s)) in *. change (2 ^ 62) with 4611686018427387904 in Hlen.
  assert (HW : zlen W = scap s) by exact (window_len σ _ Hs).
  assert (He := effect_refl σ (Some s) Hs). fold W in He. pose proof Hs as (l & _ & H1 & H2 & H3).
  destruct (h_copy σ (Some s) p vl) as [[σ1 k1]| | |] eqn:E1; cbn [rbind]; try discriminate.
  destruct (copy_effect _ _ _ _ _ _ _ _ Hs He HW E1) as (_ & Hk1 & He1).
  assert (Hk1r : 0 <= k1 <= slen s - p) by (unfold zlen in *; lia).
  rewrite (u64_small k1) by (pows; lia). rewrite (u64_small (p + k1)) by (pows; lia).
  assert (Ht1 : length (take (Z.to_nat k1) vl) = Z.to_nat k1) by (rewrite take_length; unfold zlen in *; lia).
  assert (HW1 : zlen (overw W (Z.to_nat p) (take (Z.to_nat k1) vl)) = scap s).
  { unfold zlen in *. rewrite overw_length; lia. }
  rewrite (src_still σ (Some s) σ1 _ v Hs He1 HW1 Hv).
  destruct (h_copy σ1 (Some s) (p + k1) (src_bytes σ v)) as [[σ2 k2]| | |] eqn:E2; cbn [rbind]; try discriminate.
  destruct (copy_effect _ _ _ _ _ _ _ _ Hs He1 HW1 E2) as (_ & Hk2 & He2).
  intros [= <- <-]. split; [reflexivity|].
  replace (Z.to_nat (p + k1)) with (Z.to_nat p + length (take (Z.to_nat k1) vl))%nat in He2 by lia.
  rewrite overw_overw in He2 by (unfold zlen in *; lia). rewrite put_overw.
  replace (firstn (Z.to_nat (slen s - p)) (vl ++ src_bytes σ v)) with (take (Z.to_nat k1) vl ++ take (Z.to_nat k2) (src_bytes σ v)); [exact He2|].
  rewrite firstn_app. f_equal; [|].
  - destruct (Z.le_gt_cases (slen s - p) (zlen vl)); [f_equal; lia|]. rewrite !take_ge; [reflexivity|..]; unfold zlen in *; lia.
  - destruct (Z.le_gt_cases (slen s - (p + k1)) (zlen (src_bytes σ v))); [f_equal; unfold zlen in *; lia|]. rewrite !take_ge; [reflexivity|..]; unfold zlen in *; lia.
Qed.

Lemma other_effect grow σ h f typ vl v p k tag b e σ' h' : hwf σ h -> src_clear σ (h_buf h) v -> put_uvarint MaxVarintLen64 (make_tag f typ) = Ok tag ->
  offsets_get (hoffs σ h) f = Ok (p, true) -> 0 <= p <= hlen (h_buf h) -> hlen (h_buf h) < 2 ^ 62 ->
  old_len (sbytes σ (h_buf h)) p typ = Ok k -> k <> zlen vl + zlen (src_bytes σ v) ->
  b = p - zlen tag -> e = p + k -> 0 <= b <= e -> e <= hlen (h_buf h) ->
  hsetSingle grow σ h f typ vl v = Ok (σ', h') ->
  let W := put (window σ (h_buf h)) (Z.to_nat b) (skipn (Z.to_nat e) (sbytes σ (h_buf h))) in
  let n := hlen (h_buf h) - (e - b) in
  effect σ (h_buf h) σ' (added W (Z.to_nat n) [tag; vl; src_bytes σ v]) /\
  at_place σ σ' (h_buf h) (h_buf h') (if stays (length W - Z.to_nat n) [tag; vl; src_bytes σ v] then Some (n + zlen (concat [tag; vl; src_bytes σ v])) else None) /\
  length W = length (window σ (h_buf h)).
Proof.
  intros Hwf Hv Htag Hget Hp Hlen Hold Hk Hb He0 Hbe Hel Hset W n. revert Hset. unfold hsetSingle. rewrite Htag, rbind_Ok, Hget, rbind_Ok, Hold, rbind_Ok.
  rewrite <- (src_len_ok _ _ _ Hv). replace (k =? _) with false by lia.
  pose proof (get_buf_some _ _ _ _ Hwf Hget) as Hnn. pose proof (proj1 Hwf) as Hs. change (2 ^ 62) with 4611686018427387904 in Hlen.
  assert (Htl : 0 <= zlen tag) by (unfold zlen; lia).
  rewrite (u64_small (zlen tag)) by (pows; lia). rewrite <- Hb. rewrite (u64_small b) by (pows; lia).
  assert (Ee : u64 (p + u64 k) = e). { unfold u64. rewrite Zplus_mod_idemp_r, <- He0. apply Z.mod_small. lia. }
  rewrite Ee. rewrite (u64_small (e - b)) by (pows; lia).
  assert (Hw0 := window_bytes σ (h_buf h) Hs).
  destruct (h_buf h) as [s|] eqn:Eb; [|done]. cbn [hlen] in *. pose proof Hs as (l & Hl & H1 & H2 & H3).
  assert (HW0 : zlen (window σ (Some s)) = scap s) by exact (window_len σ _ Hs).
  unfold h_from at 1. replace ((0 <=? e) && (e <=? slen s)) with true by lia. cbn [rbind].
  assert (Esb : sbytes σ (Some (mkSl (sarr s) (soff s + e) (slen s - e) (scap s - e))) = skipn (Z.to_nat e) (sbytes σ (Some s))).
  { cbn. apply list_eq. intros i. rewrite lookup_drop, !window_lookup. 
    destruct (Nat.ltb_spec i (Z.to_nat (slen s - e))), (Nat.ltb_spec (Z.to_nat e + i) (Z.to_nat (slen s))); try lia; [f_equal; lia|reflexivity]. }
  rewrite Esb. set (y := skipn (Z.to_nat e) (sbytes σ (Some s))) in *.
  assert (Hy : zlen y = slen s - e).
  { unfold y, zlen. rewrite skipn_length. pose proof (sbytes_length σ _ Hs) as Hsl. unfold zlen in Hsl. cbn [hlen] in Hsl. lia. }
  destruct (h_copy σ (Some s) b y) as [[σ1 k1]| | |] eqn:E1; cbn [rbind]; try discriminate.
  destruct (copy_effect _ _ _ _ _ _ _ _ Hs (effect_refl σ (Some s) Hs) HW0 E1) as (_ & Hk1 & He1).
  rewrite take_ge in He1 by (unfold zlen in *; lia). change (overw (window σ (Some s)) (Z.to_nat b) y) with W in He1.
  assert (HWl : length W = length (window σ (Some s))).
  { unfold W. rewrite put_overw. apply overw_length. unfold zlen in *. lia. }
  rewrite (u64_small (slen s - (e - b))) by (pows; lia).
  unfold h_range. replace ((0 <=? 0) && (0 <=? slen s - (e - b)) && (slen s - (e - b) <=? scap s)) with true by lia. cbn [rbind].
  destruct (adjust_map_keys _ _ _ _) as [o| | |]; cbn [rbind]; try discriminate.
  destruct (put_offs σ1 _ o) as [σ2 h2] eqn:E2. destruct (put_offs_arrs _ _ _ _ _ E2) as [Ea Ebuf]. cbn [put_buf h_buf] in Ebuf.
  intros Hnew. destruct (hset_new_effect grow σ (Some s) σ2 h2 f tag vl v n W σ' h' Hs) as [G1 G2]; [|exact Hv|exact Hnew|split_and!; assumption].
  split; [eapply effect_arrs; eauto|]. split; [unfold zlen in *; cbn [hcap]; lia|]. cbn [hcap]. unfold n. split; [|lia].
  unfold at_place. rewrite Ebuf, Z.add_0_r. split; [|lia]. f_equal. f_equal; lia.
Qed.

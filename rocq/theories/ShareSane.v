(** * Programs over shared memory: slices stay within their arrays *)
From Verif Require Import VarintFacts RecFacts Heap HeapApi Core HeapFacts HeapSet HeapExec HeapAlloc HeapStable GetFacts ScanFacts FindFacts.
From Verif Require Import Spec SpecScan SpecFind SpecPos SpecMem Core6 ApiFacts OffsetsFacts PosFacts HeapEffect P_Find P_Pos P_Effect StretchFacts P_Beyond.
From Verif Require Import SpecShare Share ShareFacts ShareArg ShareCore ShareRel.
From Coq Require Import ZifyBool.

Definition sane_obj (A : arrays) (o : obj) : Prop := fits A (o_buf o) /\ forall f p, o_pos o f = Some p -> 0 <= p.
Definition sane (S : shared) : Prop := good (sh_arr S) /\ Forall (fits (sh_arr S)) (sh_held S) /\ Forall (sane_obj (sh_arr S)) (sh_objs S).

Local Notation mt0 := (mkMtype 0 []).

Lemma bytely_rewritten A s W : bytely A -> Forall is_byte W -> bytely (rewritten A s W).
Proof.
  intros HB HW a l. rewrite rewritten_lookup. destruct (A !! a) as [l0|] eqn:E; [|discriminate]. cbn. intros [= <-]. specialize (HB _ _ E).
  destruct s as [t|]; [|exact HB]. unfold rewin. destruct (decide _); [|exact HB]. rewrite !Forall_app. split_and!; [apply Forall_take, HB|exact HW|apply Forall_drop, HB].
Qed.
Lemma bytely_cells A s : bytely A -> Forall is_byte (cells A s).
Proof. intros HB. destruct s as [t|]; [|constructor]. cbn. apply Forall_take, Forall_drop. destruct (A !! sarr t) as [l|] eqn:E; [apply (HB _ _ E)|constructor]. Qed.
Lemma bytely_bytes A s : bytely A -> Forall is_byte (bytes_in A s).
Proof. intros HB. apply Forall_take, bytely_cells, HB. Qed.

Lemma put_back_sane c A b W bs stay A' b' : good A -> fits A b -> put_back c A b W bs stay A' b' -> length W = length (cells A b) ->
  Forall is_byte W -> Forall is_byte bs -> (stay = true -> (length bs <= length W)%nat) -> bytely A' /\ same_sizes A A' /\ fits A' b'.
Proof.
  intros HG Hb HP HW HWb Hbs Hst. pose proof (rewritten_sizes A b W Hb HW) as HS. pose proof (bytely_rewritten A b W (good_bytely _ HG) HWb) as HRB.
  destruct HP as [|Hc].
  - split; [exact HRB|]. split; [exact HS|]. specialize (Hst eq_refl). rewrite HW in Hst. pose proof (fits_cells_len A b Hb) as Hcl.
    destruct b as [t|]; [|exact I]. cbn [hcap] in Hcl. destruct Hb as (l & Hl & G). destruct (HS _ _ Hl) as (l' & Hl' & E). exists l'. cbn. split; [exact Hl'|]. lia.
  - assert (HRn : rewritten A b W !! c.1 = None) by (rewrite rewritten_lookup, Hc; reflexivity). split_and!.
    + intros a l. destruct (decide (a = c.1)) as [->|Hne]; [rewrite lookup_insert; intros [= <-]|rewrite lookup_insert_ne by done; apply HRB].
      apply Forall_app. split; [exact Hbs|]. apply Forall_replicate. unfold is_byte. lia.
    + eapply sizes_trans; [exact HS|apply sizes_insert, HRn].
    + eexists. cbn [sarr]. rewrite lookup_insert. split; [reflexivity|]. cbn. rewrite app_length, replicate_length. lia.
Qed.

Lemma put_length W i x : (i + length x <= length W)%nat -> length (put W i x) = length W.
Proof. rewrite put_overw. apply overw_length. Qed.

Lemma stays_le n ps : stays n ps = true -> (length (concat ps) <= n)%nat.
Proof. unfold stays. apply Nat.leb_le. Qed.

Definition stepped (A : arrays) (A' : arrays) (o' : obj) : Prop := bytely A' /\ same_sizes A A' /\ sane_obj A' o'.

Lemma state_facts A o : good A -> sane_obj A o -> Forall is_byte (pbytes (state_of A o)) /\ Forall is_byte (cells A (o_buf o)) /\
  plen (state_of A o) = extent (o_buf o) /\ 0 <= plen (state_of A o) /\ (length (pbytes (state_of A o)) <= length (cells A (o_buf o)))%nat.
Proof.
  intros HG [Hf _]. pose proof (fits_bytes_len A _ Hf) as H1. pose proof (fits_cells_len A _ Hf) as H2. pose proof (fits_cap A _ HG Hf) as [H3 _].
  unfold plen, state_of. cbn [pbytes]. split_and!; [apply good_bytes; assumption|apply good_cells; assumption|exact H1|lia|]. lia.
Qed.

Lemma setting_sane c A o f T v A' o' : good A -> sane_obj A o -> in_type T v -> setting c A o f T v (SetTo A' o') -> stepped A A' o'.
Proof.
  intros HG Ho Hin Hset. destruct (state_facts A o HG Ho) as (Hbb & HWb & Hpl & Hp0 & Hlc). destruct Ho as [Hfit Hpos].
  assert (Hps : forall g p, ppos (state_of A o) g = Some p -> 0 <= p) by exact Hpos.
  remember (state_of A o) as s eqn:Es0. remember (cells A (o_buf o)) as W eqn:EW0.
  inversion Hset as [s' W' stay A1 b Hr Hlv HP E|s' W' stay A1 b Hr Hst Hdec Hlv HP E| | |]; clear Hset; rewrite <- ?Es0, <- ?EW0 in *.
  - assert (Hfinish : length W' = length W /\ Forall is_byte W' /\ Forall is_byte (pbytes s') /\ (stay = true -> (length (pbytes s') <= length W')%nat) /\ forall g p, ppos s' g = Some p -> 0 <= p).
    { destruct Hlv as [tb lb x Hpc Hp|p tb lb x Hpc Hp Hple Hk|p k tb lb x b0 e n Hpc Hp Hple Hk Hne Eb Ee Hbe Hel En];
        pose proof (pieces_bytely mt0 f T v _ _ _ Hin Hpc) as Hpb; pose proof (pieces_canonical _ _ _ _ _ Hpc (in_type_bytes _ _ Hin)) as [He1 He2];
        inversion Hpb as [|? ? Gt Hpb2]; inversion Hpb2 as [|? ? Gl Hpb3]; inversion Hpb3 as [|? ? Gx _]; clear Hpb2 Hpb3.
      - inversion Hr as [tb1 db1 He Hp1 Es|p1 tb1 db1 He Hp1|p1 k1 tb1 db1 b1 e1 He Hp1| | |]; try congruence.
        destruct (enc_unique _ _ _ _ _ _ He He1 He2) as [<- <-]. cbn [pbytes ppos]. split_and!.
        + apply added_length. exact Hlc.
        + apply added_bytes; assumption.
        + rewrite !Forall_app. auto.
        + intros Hst. rewrite added_length by exact Hlc. apply stays_le in Hst. cbn [concat] in Hst. rewrite ?app_length in Hst. rewrite ?app_length. cbn [length] in Hst. lia.
        + intros g p. unfold pset. destruct (decide _); [|apply Hps]. intros [= <-]. lia.
      - pose proof (Hps _ _ Hp) as Hp2. inversion Hr as [tb1 db1 He Hp1 Es|p1 tb1 db1 He Hp1 Hpl1 Hk1 Es|p1 k1 tb1 db1 b1 e1 He Hp1 Hpl1 Hk1 Hne1 Eb1 Ee1 Hbe1 Hel1 Es| | |]; try congruence.
        + destruct (enc_unique _ _ _ _ _ _ He He1 He2) as [<- <-]. assert (p1 = p) by congruence. subst p1. cbn [pbytes ppos]. unfold plen in *. split_and!.
          * apply put_length. rewrite firstn_length. lia.
          * apply put_bytes; [exact HWb|]. apply Forall_take, Forall_app. auto.
          * rewrite !Forall_app. split_and!; [apply Forall_take, Hbb|apply Forall_take, Forall_app; auto|apply Forall_drop, Hbb].
          * intros _. rewrite put_length by (rewrite firstn_length; lia). rewrite !app_length, !firstn_length, skipn_length, !app_length. lia.
          * exact Hps.
        + exfalso. assert (p1 = p) by congruence. subst p1. destruct (enc_unique _ _ _ _ _ _ He He1 He2) as [<- <-]. apply Hne1.
          clear -Hk Hk1 Hbb. assert (Hd : Forall is_byte (at_pos (pbytes s) p)) by (apply Forall_drop, Hbb).
          inversion Hk as [v1 n1 T1 V1 E1|T1 E1|T1 E1|len1 n1 T1 V1 E1]; inversion Hk1 as [v2 n2 T2 V2|T2|T2|len2 n2 T2 V2]; try congruence;
            destruct (varint_at_det _ _ _ _ _ Hd V1 V2) as [? ?]; subst; auto.
      - pose proof (Hps _ _ Hp) as Hp2. inversion Hr as [tb1 db1 He Hp1 Es|p1 tb1 db1 He Hp1 Hpl1 Hk1 Es|p1 k1 tb1 db1 b1 e1 He Hp1 Hpl1 Hk1 Hne1 Eb1 Ee1 Hbe1 Hel1 Es| | |]; try congruence;
          destruct (enc_unique _ _ _ _ _ _ He He1 He2) as [<- <-]; assert (p1 = p) by congruence; subst p1.
        + exfalso. apply Hne.
          clear -Hk Hk1 Hbb. assert (Hd : Forall is_byte (at_pos (pbytes s) p)) by (apply Forall_drop, Hbb).
          inversion Hk as [v1 n1 T1 V1 E1|T1 E1|T1 E1|len1 n1 T1 V1 E1]; inversion Hk1 as [v2 n2 T2 V2|T2|T2|len2 n2 T2 V2]; try congruence;
            destruct (varint_at_det _ _ _ _ _ Hd V1 V2) as [? ?]; subst; auto.
        + assert (k1 = k).
          { clear -Hk Hk1 Hbb. assert (Hd : Forall is_byte (at_pos (pbytes s) p)) by (apply Forall_drop, Hbb).
            inversion Hk as [v1 n1 T1 V1 E1|T1 E1|T1 E1|len1 n1 T1 V1 E1]; inversion Hk1 as [v2 n2 T2 V2|T2|T2|len2 n2 T2 V2]; try congruence;
              destruct (varint_at_det _ _ _ _ _ Hd V1 V2) as [? ?]; subst; auto. }
          assert (b1 = b0) by lia. assert (e1 = e) by lia. subst k1 b1 e1. cbn [pbytes ppos]. unfold plen in *.
          assert (HL : length (put W (Z.to_nat b0) (skipn (Z.to_nat e) (pbytes s))) = length W) by (apply put_length; rewrite skipn_length; lia).
          split_and!.
          * rewrite added_length; [exact HL|]. lia.
          * apply added_bytes; [|exact Hpb]. apply put_bytes; [exact HWb|apply Forall_drop, Hbb].
          * rewrite !Forall_app. split_and!; try assumption; [apply Forall_take, Hbb|apply Forall_drop, Hbb].
          * intros Hst. rewrite added_length by lia. apply stays_le in Hst. cbn [concat] in Hst. rewrite ?app_length in Hst. rewrite ?app_length. rewrite firstn_length, skipn_length. cbn [length] in Hst. lia.
          * intros g q. unfold pset. destruct (decide _); [intros [= <-]; lia|]. destruct (ppos s g) as [q0|] eqn:Eq; [|discriminate]. cbn. intros [= <-]. pose proof (Hps _ _ Eq). destruct (_ <? _) eqn:?; lia. }
    destruct Hfinish as (F1 & F2 & F3 & F4 & F5). destruct (put_back_sane c A (o_buf o) W' (pbytes s') stay A' b HG Hfit HP ltac:(rewrite <- EW0; exact F1) F2 F3 F4) as (G1 & G2 & G3).
    split; [exact G1|]. split; [exact G2|]. split; [exact G3|exact F5].
  - destruct Hlv as [p k tb lb x b0 e d n Hpc Hp Hple Hk Eb Ee Hbe Ed Hroom En].
    inversion Hst as [p1 k1 tb1 lb1 x1 b1 e1 d1 Hpc1 Hp1 Hpl1 Hk1 Eb1 Ee1 Hbe1 Ed1 Hroom1 Es|]. rewrite <- ?Es0, <- ?EW0 in *. assert (p1 = p) by congruence. subst p1.
    assert (k1 = k).
    { clear -Hk Hk1 Hbb. assert (Hd : Forall is_byte (at_pos (pbytes s) p)) by (apply Forall_drop, Hbb).
      inversion Hk as [v1 n1 T1 V1 E1|T1 E1|T1 E1|len1 n1 T1 V1 E1]; inversion Hk1 as [v2 n2 T2 V2|T2|T2|len2 n2 T2 V2]; try congruence;
        destruct (varint_at_det _ _ _ _ _ Hd V1 V2) as [? ?]; subst; auto. }
    destruct (pieces_unique _ _ _ _ _ _ _ _ Hpc Hpc1) as (-> & -> & ->). assert (b1 = b0) by lia. assert (e1 = e) by lia. assert (d1 = d) by lia. subst k1 b1 e1 d1.
    pose proof (pieces_bytely mt0 f T v _ _ _ Hin Hpc) as Hpb. inversion Hpb as [|? ? Gt Hpb2]; inversion Hpb2 as [|? ? Gl Hpb3]; inversion Hpb3 as [|? ? Gx _]; clear Hpb2 Hpb3.
    rewrite <- Eb, <- Ee, <- Ed in Es.
    set (W1 := put W (Z.to_nat b0) (firstn (Z.to_nat (plen s - b0)) (skipn (Z.to_nat e) (pbytes s)))) in *.
    assert (HL : length W1 = length W).
    { unfold W1. unfold plen in *. apply put_length. rewrite firstn_length, skipn_length. lia. }
    assert (HWb1 : Forall is_byte W1) by (apply put_bytes; [exact HWb|apply Forall_take, Forall_drop, Hbb]).
    destruct (put_back_sane c A (o_buf o) (added W1 n [tb; lb; x]) (pbytes s') (stays (length W - n) [tb; lb; x]) A' b HG Hfit HP) as (G1 & G2 & G3).
    { rewrite added_length by lia. rewrite <- EW0. exact HL. } { apply added_bytes; assumption. }
    { rewrite <- Es. cbn [pbytes]. fold W1. rewrite !Forall_app. split_and!; try assumption. apply Forall_take, HWb1. }
    { intros Hs. rewrite added_length by lia. rewrite HL. apply stays_le in Hs. cbn [concat] in Hs. rewrite <- Es. cbn [pbytes]. fold W1. rewrite ?app_length in Hs. rewrite ?app_length. rewrite firstn_length. cbn [length] in Hs. lia. }
    split; [exact G1|]. split; [exact G2|]. split; [exact G3|]. try match goal with H : become _ _ _ = _ |- _ => rewrite <- H end. cbn [become o_pos]. rewrite <- ?Es. cbn [ppos]. intros g q. unfold pset. destruct (decide _); [intros [= <-]; lia|].
    destruct (ppos s g) as [q0|] eqn:Eq; [|discriminate]. cbn. intros [= <-]. pose proof (Hps _ _ Eq). destruct (_ <? _) eqn:?; lia.
Qed.

Lemma pieces_two f x tb lb : pieces f (WBytes x) tb lb x -> Forall (Forall is_byte) [tb; lb].
Proof. intros Hpc. destruct (pieces_tag mt0 f _ _ _ _ Hpc) as (H1 & H2 & _). repeat constructor; assumption. Qed.

Lemma reads_arg_bytes A o f a x : good A -> sane_obj A o -> reads_arg A o f a x -> Forall is_byte x.
Proof.
  intros HG Ho Hx. destruct (state_facts A o HG Ho) as (Hbb & HWb & _). pose proof (good_bytely _ HG) as HB.
  destruct Hx as [tb lb ? ? Hpc|p tb lb ? ? Hpc|p k tb lb b e n ? ? Hpc|p k tb lb b e d n ? ? Hpc|]; try (apply bytely_bytes, bytely_rewritten; [exact HB|]); try (apply pieces_two in Hpc).
  - apply added_bytes; assumption.
  - apply put_bytes; [exact HWb|]. apply Forall_take. inversion Hpc as [|? ? _ Hpc2]. inversion Hpc2. assumption.
  - apply added_bytes; [|exact Hpc]. apply put_bytes; [exact HWb|apply Forall_drop, Hbb].
  - apply added_bytes; [|exact Hpc]. apply put_bytes; [exact HWb|apply Forall_take, Forall_drop, Hbb].
  - apply bytely_bytes, HB.
Qed.

Lemma slice_sane c A o f a A' o' : good A -> sane_obj A o -> setting_slice c A o f a (SetTo A' o') -> stepped A A' o'.
Proof. intros HG Ho (x & Hx & Hset). eapply setting_sane; try eassumption. cbn. eapply reads_arg_bytes; eassumption. Qed.

Lemma append_sane c A o f a A' o' : good A -> sane_obj A o -> appending c A o f a (SetTo A' o') -> stepped A A' o'.
Proof.
  intros HG Ho Hap. destruct (state_facts A o HG Ho) as (Hbb & HWb & Hpl & Hp0 & Hlc). destruct Ho as [Hfit Hpos].
  assert (Hps : forall g p, ppos (state_of A o) g = Some p -> 0 <= p) by exact Hpos.
  remember (state_of A o) as s eqn:Es0. remember (cells A (o_buf o)) as W eqn:EW0.
  inversion Hap as [tb lb x s' W' stay A1 b Hpc Ex Happ Hlv HP E]. clear Hap. rewrite <- ?Es0, <- ?EW0 in *.
  assert (Hxb : Forall is_byte x).
  { rewrite Ex. apply bytely_bytes, bytely_rewritten; [apply good_bytely, HG|]. apply added_bytes; [exact HWb|]. eapply pieces_two; eassumption. }
  clear Hpc Ex tb lb. destruct Hlv as [tb lb Hpc]. pose proof (pieces_bytely mt0 f PBytes (VBytes (Some x)) tb lb x Hxb Hpc) as Hpb.
  pose proof (pieces_canonical _ _ _ _ _ Hpc ltac:(intros y [= <-]; exact Hxb)) as [He1 He2].
  inversion Hpb as [|? ? Gt Hpb2]; inversion Hpb2 as [|? ? Gl Hpb3]; inversion Hpb3 as [|? ? Gx _]; clear Hpb2 Hpb3.
  assert (Es : pbytes s' = pbytes s ++ tb ++ lb ++ x /\ forall g p, ppos s' g = Some p -> 0 <= p).
  { inversion Happ as [tb1 db1 He Hp Es|p tb1 db1 He Hp Es]; destruct (enc_unique _ _ _ _ _ _ He He1 He2) as [<- <-]; cbn [pbytes ppos]; (split; [reflexivity|]); [|exact Hps].
    intros g p. unfold pset. destruct (decide _); [|apply Hps]. intros [= <-]. lia. }
  destruct Es as [Es Hps'].
  destruct (put_back_sane c A (o_buf o) _ (pbytes s') _ A' b HG Hfit HP) as (G1 & G2 & G3).
  { rewrite <- EW0. apply added_length. exact Hlc. } { apply added_bytes; assumption. } { rewrite Es, !Forall_app. auto. }
  { intros Hst. rewrite added_length by exact Hlc. rewrite Es. apply stays_le in Hst. cbn [concat] in Hst. rewrite ?app_length in Hst. rewrite ?app_length. cbn [length] in Hst. lia. }
  split; [exact G1|]. split; [exact G2|]. split; [exact G3|exact Hps'].
Qed.

(** Positions recorded by Decode. *)
Lemma recorded_pos reps f l : forall cur, Forall (fun x : Z * Z => 0 <= x.2) l -> (forall p, cur = Some p -> 0 <= p) -> forall p, recorded reps f l cur = Some p -> 0 <= p.
Proof.
  induction l as [|[g q] l IH]; intros cur Hl Hc p; cbn [recorded]; [apply Hc|]. inversion Hl as [|? ? G1 G2]. cbn in G1. apply IH; [exact G2|].
  intros p'. destruct (decide (g = f)); [|apply Hc]. destruct (decide (f ∈ reps)); [destruct cur; [apply Hc|]|]; (destruct (decide (q = 0)); [discriminate|]; intros [= <-]; exact G1).
Qed.
Lemma walk_pos n bs i l j : walk n bs i l j -> Forall (fun x : Z * Z => 0 <= x.2) l.
Proof. induction 1 as [|i f p j l k (tag & s & _ & H & _) _ _ IH]; constructor; [exact H|exact IH]. Qed.
Lemma early_pos n bs i l : ends_early n bs i l -> Forall (fun x : Z * Z => 0 <= x.2) l.
Proof. destruct 1; repeat constructor; assumption. Qed.

Lemma gets_slice_fits A o f s : sane_obj A o -> gets_slice A o f (Some s) -> fits A s.
Proof.
  intros [Hf Hp] Hg. inversion Hg as [|p t len n lo hi Hp1 Hp2 Hb Hv Elo Ehi Hr| |]; [exact I|]. rewrite Hb in Hf. destruct Hf as (l & Hl & G). exists l. cbn.
  assert (0 <= lo) by (rewrite Elo; apply Z.mod_pos_bound; lia). split; [exact Hl|]. lia.
Qed.

Lemma sane_grow S A' held : sane S -> bytely A' -> same_sizes (sh_arr S) A' -> modest (mkShared A' (sh_objs S) held) -> Forall (fits A') held -> sane (mkShared A' (sh_objs S) held).
Proof.
  intros (H1 & H2 & H3) HB HS Hmo Hh. split_and!; [apply modest_good; assumption|exact Hh|]. cbn. eapply Forall_impl; [exact H3|]. intros o [G1 G2]. split; [eapply fits_sizes; eassumption|exact G2].
Qed.
Lemma sane_set S i A' o' : sane S -> stepped (sh_arr S) A' o' -> modest (set_obj S i A' o') -> sane (set_obj S i A' o').
Proof.
  intros (H1 & H2 & H3) (HB & HS & Ho) Hmo. split_and!; [apply modest_good; assumption|cbn; eapply held_sizes; eassumption|]. cbn. apply Forall_insert; [|exact Ho].
  eapply Forall_impl; [exact H3|]. intros o [G1 G2]. split; [eapply fits_sizes; eassumption|exact G2].
Qed.
Lemma sane_hold S s : sane S -> fits (sh_arr S) s -> sane (add_held S s).
Proof. intros (H1 & H2 & H3) Hs. split_and!; [exact H1| |exact H3]. cbn. apply Forall_app. auto. Qed.
Lemma sane_given S i o a pos : sane S -> fits (sh_arr S) a -> (forall f p, pos f = Some p -> 0 <= p) -> modest (set_obj S i (sh_arr S) (become o a pos)) -> sane (set_obj S i (sh_arr S) (become o a pos)).
Proof.
  intros HS Ha Hp Hmo. apply sane_set; [exact HS| |exact Hmo]. split; [apply good_bytely, HS|]. split; [apply sizes_refl|]. split; [exact Ha|exact Hp].
Qed.

Lemma next_range f b y r len lo : Forall is_byte (b ++ y) -> next_in f b (b ++ y) r -> (exists x rest, r = More x rest) \/ (exists x, r = Last x) ->
  SpecScan.varint_at b len lo -> 0 <= lo <= signed64 (lo + len) /\ signed64 (lo + len) <= Z.of_nat (length (b ++ y)) /\
  forall x rest, r = More x rest -> (length rest <= length b)%nat.
Proof.
  intros HW Hn Hr Hv. pose proof (proj1 (proj1 (Forall_app _ _ _) HW)) as Hb.
  assert (Hel : forall x hi, element b x hi -> 0 <= lo <= signed64 (lo + len) /\ signed64 (lo + len) <= Z.of_nat (length (b ++ y))).
  { intros x hi [len1 n1 h1 A1 A2 A3 A4]. destruct (varint_at_det b _ _ _ _ Hb Hv A1) as [<- <-]. rewrite app_length. lia. }
  destruct Hn as [r Hn Hne|x hi Hn He|Hn He].
  - destruct Hn as [x hi k i p He _ _|x hi k i He _ _| | | |]; try (destruct Hr as [(? & ? & ?)|(? & ?)]; congruence);
      (split; [apply (Hel _ _ He)|]); (split; [apply (Hel _ _ He)|]); intros x' rest [= _ <-]. rewrite skipn_length. lia.
  - destruct (Hr) as [(? & ? & ?)|_]; [discriminate|]. inversion Hn as [| |(len1 & n1 & hi1 & A1 & A2 & A3 & A4)| | |]. destruct (varint_at_det b _ _ _ _ Hb Hv A1) as [<- <-].
    destruct He as [len2 n2 h2 B1 B2 B3 B4]. assert (HvW : SpecScan.varint_at (b ++ y) len lo).
    { left. apply reads_app. destruct Hv as [Hv|(_ & -> & ->)]; [exact Hv|]. exfalso. change (signed64 (0 + 0)) with 0 in A2. lia. }
    destruct (varint_at_det (b ++ y) _ _ _ _ HW HvW B1) as [<- <-]. split; [lia|]. split; [lia|]. discriminate.
  - destruct Hr as [(? & ? & ?)|(? & ?)]; discriminate.
Qed.

Lemma sane_next S k s' d : sane S -> fits (sh_arr S) s' -> fits (sh_arr S) d -> sane (mkShared (sh_arr S) (sh_objs S) (<[k := s']> (sh_held S) ++ [d])).
Proof. intros (H1 & H2 & H3) Hs Hd. split_and!; [exact H1| |exact H3]. cbn. apply Forall_app. split; [apply Forall_insert; assumption|auto]. Qed.

Lemma cells_split A s : fits A s -> cells A s = bytes_in A s ++ skipn (Z.to_nat (extent s)) (cells A s).
Proof. intros _. symmetry. apply take_drop. Qed.

Lemma next_fits A t r f len lo : good A -> fits A (Some t) -> next_in f (bytes_in A (Some t)) (cells A (Some t)) r ->
  (exists x rest, r = More x rest) \/ (exists x, r = Last x) -> SpecScan.varint_at (bytes_in A (Some t)) len lo ->
  0 <= lo <= signed64 (lo + len) /\ signed64 (lo + len) <= scap t /\ forall x rest, r = More x rest -> Z.of_nat (length rest) <= slen t.
Proof.
  intros HG Hf Hn Hr Hv. pose proof (good_cells _ _ HG Hf) as HW. rewrite (cells_split _ _ Hf) in HW, Hn.
  destruct (next_range _ _ _ _ _ _ HW Hn Hr Hv) as (H1 & H2 & H3). rewrite <- (cells_split _ _ Hf), fits_cells_len in H2 by assumption.
  split; [exact H1|]. split; [exact H2|]. intros x rest E. specialize (H3 x rest E). pose proof (fits_bytes_len _ _ Hf) as H4. cbn [extent] in H4. lia.
Qed.

Theorem sane_step c S a S' o : sane S -> sensible S a -> does c S a (Goes S' o) -> modest S' -> sane S'.
Proof.
  intros HS Hse Hd Hmo. pose proof HS as (HG & HH & HO).
  assert (Hheld : forall k s, sh_held S !! k = Some s -> fits (sh_arr S) s) by (intros k s; apply (Forall_lookup_1 _ _ _ _ HH)).
  assert (Hobj : forall i ob, sh_objs S !! i = Some ob -> sane_obj (sh_arr S) ob) by (intros i ob; apply (Forall_lookup_1 _ _ _ _ HO)).
  inversion Hd; subst; clear Hd.
  - split_and!; [exact HG|exact HH|]. cbn. apply Forall_app. split; [exact HO|]. constructor; [|constructor]. split; [exact I|discriminate].
  - split_and!; [exact HG|exact HH|]. cbn. apply Forall_app. split; [exact HO|]. constructor; [|constructor]. eauto.
  - apply sane_grow; [exact HS| |apply sizes_insert; assumption|exact Hmo|].
    + intros b l. destruct (decide (b = c.1)) as [->|Hne]; [rewrite lookup_insert; intros [= <-]|rewrite lookup_insert_ne by done; apply good_bytely, HG].
      apply Forall_app. split; [assumption|]. apply Forall_replicate. unfold is_byte. lia.
    + apply Forall_app. split; [eapply held_sizes; [apply sizes_insert; assumption|exact HH]|]. constructor; [|constructor]. eexists. cbn [sarr]. rewrite lookup_insert. split; [reflexivity|]. cbn. rewrite app_length, replicate_length. lia.
  - match goal with H : sh_held S !! k = Some s |- _ => pose proof (Hheld _ _ H) as Hf end. pose proof (fits_cells_len _ _ Hf) as Hcl. pose proof (fits_cap _ _ HG Hf) as [Hc1 _].
    assert (HL : length (put (cells (sh_arr S) s) (Z.to_nat j) [b]) = length (cells (sh_arr S) s)) by (apply put_length; cbn [length]; lia).
    assert (HSz : same_sizes (sh_arr S) (rewritten (sh_arr S) s (put (cells (sh_arr S) s) (Z.to_nat j) [b]))) by (apply rewritten_sizes; assumption).
    apply sane_grow; try assumption; [|eapply held_sizes; eassumption]. apply bytely_rewritten; [apply good_bytely, HG|]. apply put_bytes; [apply good_cells; assumption|]. constructor; [assumption|constructor].
  - match goal with H : sh_held S !! k = Some s |- _ => pose proof (Hheld _ _ H) as Hf end. pose proof (fits_cells_len _ _ Hf) as Hcl. pose proof (fits_cap _ _ HG Hf) as [Hc1 _]. pose proof (fits_bytes_len _ _ Hf) as Hbl.
    match goal with H : put_back _ _ _ _ _ _ _ _ |- _ => destruct (put_back_sane _ _ _ _ _ _ _ _ HG Hf H) as (G1 & G2 & G3) end.
    { apply added_length. lia. } { apply added_bytes; [apply good_cells; assumption|repeat constructor; assumption]. } { apply Forall_app. split; [apply good_bytes; assumption|assumption]. }
    { intros Hst. rewrite added_length by lia. apply stays_le in Hst. cbn [concat] in Hst. rewrite ?app_length in Hst. rewrite ?app_length. cbn [length] in Hst. lia. }
    apply sane_grow; try assumption. apply Forall_app. split; [eapply held_sizes; eassumption|auto].
  - apply sane_hold; [exact HS|]. match goal with H : sh_held S !! k = Some _ |- _ => pose proof (Hheld _ _ H) as Hf end. eapply sub_fits; eassumption.
  - apply sane_hold; [exact HS|exact I].
  - exact HS.
  - eapply sane_set; [exact HS| |exact Hmo]. eapply setting_sane; eauto.
  - eapply sane_set; [exact HS| |exact Hmo]. eapply slice_sane; eauto.
  - eapply sane_set; [exact HS| |exact Hmo]. eapply append_sane; eauto.
  - exact HS.
  - apply sane_hold; [exact HS|]. eapply gets_slice_fits; eauto.
  - apply sane_hold; [exact HS|]. apply (string_fits S). eapply gets_slice_fits; eauto.
  - apply sane_hold; [exact HS|]. match goal with H : sh_objs S !! i = Some _ |- _ => apply (Hobj _ _ H) end.
  - apply sane_given; eauto. intros f. apply recorded_pos; [eapply walk_pos; eassumption|discriminate].
  - apply sane_given; eauto. intros f. apply recorded_pos; [|discriminate]. apply Forall_app. split; [eapply walk_pos; eassumption|eapply early_pos; eassumption].
  - apply sane_given; eauto. discriminate.
  - apply sane_hold; [exact HS|exact I].
  - apply sane_hold; [exact HS|]. match goal with H : sh_objs S !! i = Some _ |- _ => destruct (Hobj _ _ H) as [G1 G2] end.
    match goal with H : o_buf _ = Some _ |- _ => rewrite H in G1 end. apply (suffix_fits S); [exact G1|]. split; [eapply G2; eassumption|assumption].
  - apply sane_hold; [exact HS|exact I].
  - match goal with H : sh_held S !! k = Some _ |- _ => pose proof (Hheld _ _ H) as Hf end.
    match goal with Hn : next_in _ _ _ _, Hv : SpecScan.varint_at _ _ _ |- _ => destruct (next_fits _ _ _ _ _ _ HG Hf Hn ltac:(eauto) Hv) as (G1 & G2 & G3) end.
    specialize (G3 _ _ eq_refl). apply sane_next; [exact HS|apply (suffix_fits S); [exact Hf|lia]|apply (sub_fits S); [exact Hf|lia|lia]].
  - match goal with H : sh_held S !! k = Some _ |- _ => pose proof (Hheld _ _ H) as Hf end.
    match goal with Hn : next_in _ _ _ _, Hv : SpecScan.varint_at _ _ _ |- _ => destruct (next_fits _ _ _ _ _ _ HG Hf Hn ltac:(eauto) Hv) as (G1 & G2 & G3) end.
    apply sane_next; [exact HS|exact I|apply (sub_fits S); [exact Hf|lia|lia]].
Qed.

Theorem reach_sane S : reach S -> sane S.
Proof.
  induction 1 as [|c S a S' o _ IH Hse Hd Hmo]; [|eapply sane_step; eassumption]. split_and!; [|constructor|constructor].
  intros a l H. cbn in H. rewrite lookup_empty in H. discriminate H.
Qed.

(** * C79, C80: what calls cost, in memory accesses *)
From Verif Require Import GoBase Spec VarintFacts OffsetsFacts RecFacts DecodeFacts SetFacts Heap HeapFacts Api GetFacts ApiInv ApiFacts HeapExec HeapStable Core6 SpecCost Demo.
From Verif Require Import Access AccessFacts AccessApi SpecGo SpecSpend SpendFacts SpendGet SpendSet SpendMore SpendScan.
From Coq Require Import ZifyBool.

Section history.
Context (mt : mtype) (sc : schema) (os : list op) (m : msg) (G : heap) (o : nat).
Hypothesis Hsc : schema_ok mt sc.
Hypothesis Hh : history mt sc os m.
Hypothesis Hsz : ops_size os + 100 < 2 ^ 63.
Hypothesis HS : stores G o m.

Lemma hist_rep : exists cs, Rep mt sc m cs /\ zlen (mbuf m) < 2 ^ 63 /\ forall f, spec_run sc os f = view sc (map crecord cs) f.
Proof.
  destruct Hh as [H1 H2]. destruct (run_rep mt sc os m Hsc H1 ltac:(lia) H2) as (cs & Hr & Hs & Hl). exists cs. split; [exact Hr|]. split; [lia|exact Hs].
Qed.
Lemma hist_len : zlen (mbuf m) <= ops_size os.
Proof. destruct Hh as [H1 H2]. destruct (run_rep mt sc os m Hsc H1 ltac:(lia) H2) as (cs & Hr & Hs & Hl). lia. Qed.
(** Where a set field is. *)
Lemma last_split_unique f (p1 p2 : list crec) c1 c2 q1 q2 : p1 ++ c1 :: q1 = p2 ++ c2 :: q2 -> cf c1 = f -> cf c2 = f ->
  occ f (map crecord q1) = [] -> occ f (map crecord q2) = [] -> c1 = c2.
Proof.
  revert p2. induction p1 as [|a p1 IH]; intros [|b p2] E H1 H2 O1 O2; cbn [app] in E; injection E as -> E.
  - reflexivity.
  - exfalso. subst q1. rewrite map_app, occ_app in O1. cbn [map occ crecord] in O1. rewrite H2, Z.eqb_refl in O1. apply app_eq_nil in O1 as [_ O1]. discriminate O1.
  - exfalso. subst q2. rewrite map_app, occ_app in O2. cbn [map occ crecord] in O2. rewrite H1, Z.eqb_refl in O2. apply app_eq_nil in O2 as [_ O2]. discriminate O2.
  - eauto.
Qed.
Lemma hist_in cs f T : Rep mt sc m cs -> zlen (mbuf m) < 2 ^ 63 -> (forall f, spec_run sc os f = view sc (map crecord cs) f) -> sc f = Some (KSingle T) ->
  (spec_run sc os f = [] /\ offsets_get (moff m) f = Ok (0, false) /\ occ f (map crecord cs) = []) \/
  exists pre c post, cs = pre ++ c :: post /\ occ f (map crecord post) = [] /\ mbuf m = (flat pre ++ ct c) ++ cp c ++ flat post /\
    offsets_get (moff m) f = Ok (zlen (flat pre ++ ct c), true) /\ cmin c /\ cf c = f /\ conforms T (cw c) /\ zlen (ct c) <= zlen (flat pre ++ ct c) /\
    spec_run sc os f = [cw c].
Proof.
  intros [Hbuf Hmin Hwf Hlen Hidx Hty] Hlt Hspec Hf. destruct Hsc as (Hn & Hrange & Hrep & Hsing).
  assert (Hr : in_range (moff m) f) by (unfold in_range; rewrite Hlen; eapply Hrange, Hf).
  assert (Hnr : is_repeated (reps mt) f = false) by (destruct (is_repeated (reps mt) f) eqn:E; [|reflexivity]; apply is_repeated_In in E; exfalso; eapply Hsing; eassumption).
  pose proof (offsets_get_eq _ f Hwf Hr) as Hg. specialize (Hspec f). unfold view in Hspec. rewrite Hf in Hspec.
  destruct (decide (occ f (map crecord cs) = [])) as [Hocc|Hocc].
  - left. rewrite Hocc in Hspec. split; [exact Hspec|]. rewrite (Hidx f Hr), (proj2 (poss_nil_iff f 0 cs) Hocc), pick_nil in Hg. auto.
  - right. destruct (split_last f cs Hocc) as (pre & c & post & -> & Hcf & Hpost).
    exists pre, c, post. rewrite (in_range_occ_pos _ _ _ _ Hidx Hr Hnr pre c post eq_refl Hcf Hpost) in Hg.
    apply Forall_app in Hmin as [_ Hmin]. apply Forall_cons in Hmin as [Hc _].
    apply Forall_app in Hty as [_ Hty]. apply Forall_cons in Hty as [[_ Hc'] _]. unfold well_typed in Hc'. cbn [crecord fst snd] in Hc'. rewrite Hcf, Hf in Hc'.
    split_and!; auto.
    + rewrite Hbuf, flat_app. cbn [flat]. unfold cbytes. rewrite <- !app_assoc. reflexivity.
    + rewrite zlen_app. exact Hg.
    + rewrite zlen_app. pose proof (zlen_nonneg (flat pre)). lia.
    + rewrite Hspec, map_app, occ_app. cbn [map occ crecord]. rewrite Hcf, Z.eqb_refl, Hpost. apply last_only_snoc.
Qed.
Lemma hist_at f T : sc f = Some (KSingle T) ->
  (spec_run sc os f = [] /\ offsets_get (moff m) f = Ok (0, false)) \/
  exists l1 c r, mbuf m = l1 ++ cp c ++ r /\ offsets_get (moff m) f = Ok (zlen l1, true) /\ cmin c /\ cf c = f /\ conforms T (cw c) /\ zlen (ct c) <= zlen l1 /\
    spec_run sc os f = [cw c].
Proof.
  intros Hf. destruct hist_rep as (cs & Hr & Hlt & Hspec). destruct (hist_in cs f T Hr Hlt Hspec Hf) as [(H1 & H2 & _)|(pre & c & post & -> & Hpost & H1 & H2 & H3)].
  - left. auto.
  - right. exists (flat pre ++ ct c), c, (flat post). split_and!; try apply H3; auto.
Qed.

(** A getter makes at most fourteen accesses, whatever the sizes of the message and of the
    field, and changes nothing; at most three if the field is absent. *)
Theorem C79_getter f T k G' r : sc f = Some (KSingle T) -> spends G (c_get T (alen mt) o f) k G' r ->
  (k <= 14)%nat /\ G' = G /\ (spec_run sc os f = [] -> (k <= 3)%nat).
Proof.
  intros Hf Hs. destruct hist_rep as (cs & Hr & _). pose proof (rep_len _ _ _ _ Hr) as Hlen.
  destruct (hist_at f T Hf) as [[Hn Hg]|(l1 & c & r0 & Hb & Hg & [[_ Hp] _] & _ & Hc & _ & Hne)].
  - destruct (cwp_get_none G T (alen mt) o f m HS Hlen Hg _ _ _ Hs) as [-> Hk]. split; [lia|]. auto.
  - destruct (cwp_get_some G T (alen mt) o f m l1 (cw c) (cp c) r0 HS Hlen Hg Hb Hp Hc _ _ _ Hs) as [-> Hk]. split; [exact Hk|]. split; [reflexivity|]. rewrite Hne. discriminate.
Qed.

(** What a setter is called with. *)
Lemma hist_args T v : in_type T v -> pval_size v < 2 ^ 63 ->
  exists vl x, set_args T v = Ok (wire_type (wire_of T v), vl, x) /\ canonical_payload (wire_of T v) (vl ++ x) /\ 0 <= zlen vl <= 10 /\ zlen vl + zlen x <= 10 + pval_size v.
Proof.
  intros Hin Hs. destruct (set_args_canonical T v Hin ltac:(lia)) as (vl & x & E & Hc). pose proof (set_args_len _ _ _ _ _ E) as [H1 H2]. pose proof (zlen_nonneg vl).
  exists vl, x. split_and!; auto.
Qed.

(** Setting a field without changing the length of the message (the new value takes as
    many bytes as the old one): nothing but the value is read or written. *)
Theorem C79_set_same grow f T v m' k G' r : sc f = Some (KSingle T) -> in_type T v -> ops_size os + pval_size v + 100 < 2 ^ 63 ->
  m_set T m f v = Ok m' -> length (m_Encode m') = length (m_Encode m) ->
  spends G (c_set grow T (alen mt) o f v) k G' r -> Z.of_nat k <= 26 + pval_size v.
Proof.
  intros Hf Hin Hps Hset Hlen Hs. destruct hist_rep as (cs & Hr & Hlt & Hspec). pose proof (rep_len _ _ _ _ Hr) as Hln.
  assert (Hps0 : 0 <= pval_size v) by (destruct v as [| | |[|]]; cbn; lia).
  pose proof (ops_size_nonneg os) as Hos.
  pose proof hist_len as Hml.
  destruct (hist_args T v Hin ltac:(lia)) as (vl & x & Ha & Hcan & Hvl & Hx).
  destruct (rep_set mt sc m cs f T v Hsc Hr Hf Hin ltac:(lia)) as (m2 & cs' & new & He & Hm' & Hnew & Hnf & Hnw & Hcan2 & Hpl & Hres & _).
  rewrite Hset in He. injection He as <-. pose proof (canonical_payload_unique _ _ _ Hcan Hcan2) as Hcp.
  unfold m_Encode in Hlen. rewrite (rep_buf _ _ _ _ Hm'), (rep_buf _ _ _ _ Hr) in Hlen.
  assert (Hlz : zlen (flat cs') = zlen (flat cs)) by (unfold zlen; lia). clear Hlen.
  unfold c_set in Hs. rewrite Ha in Hs. cbn [bind catch] in Hs.
  destruct (hist_in cs f T Hr Hlt Hspec Hf) as [(Hn & Hg & Hocc)|(pre & c & post & Ecs & Hpost & Hb & Hg & Hc & Hcf & [Hct Hc2] & Hle & Hne)].
  - exfalso. destruct Hnew as [[Ht Hp] _]. apply tag_len in Ht. apply payload_len_pos in Hp.
    destruct Hres as [cs Ho|pre c post Hc Ho Hcp' Hct _|pre c post Hc Ho Hcp' Hct].
    + rewrite flat_app, zlen_app in Hlz. cbn [flat] in Hlz. unfold cbytes in Hlz. rewrite app_nil_r, zlen_app in Hlz. lia.
    + rewrite map_app, occ_app in Hocc. cbn [map occ crecord] in Hocc. rewrite Hc, Z.eqb_refl in Hocc. apply app_eq_nil in Hocc as [_ Hocc]. discriminate Hocc.
    + rewrite map_app, occ_app in Hocc. cbn [map occ crecord] in Hocc. rewrite Hc, Z.eqb_refl in Hocc. apply app_eq_nil in Hocc as [_ Hocc]. discriminate Hocc.
  - assert (Hsame : zlen (cp new) = zlen (cp c)).
    { destruct Hres as [cs Ho|pre2 c2 post2 Hc' Ho Hcp' Hct' _|pre2 c2 post2 Hc' Ho Hcp' Hct'].
      - rewrite flat_app, zlen_app in Hlz. cbn [flat] in Hlz. unfold cbytes in Hlz. rewrite app_nil_r, zlen_app in Hlz. destruct Hnew as [[Ht _] _]. apply tag_len in Ht. pose proof (zlen_nonneg (cp new)). lia.
      - rewrite Hcp'. f_equal. f_equal. exact (last_split_unique f _ _ _ _ _ _ Ecs Hc' Hcf Ho Hpost).
      - exfalso. rewrite !flat_app in Hlz. cbn [flat] in Hlz. unfold cbytes in Hlz. rewrite app_nil_r, !zlen_app, Hct' in Hlz. lia. }
    assert (Hw : wire_type (wire_of T v) = wire_type (cw c)) by (rewrite Hct; apply (conforms_wire_of T v Hin)).
    destruct Hc as [[Ht Hp] _].
    rewrite Hw in Hs. eapply Z.le_trans; [eapply (cwp_set_same grow (alen mt) o f G m (cw c) (flat pre ++ ct c) (cp c) (flat post) vl (Scratch x)); try eassumption|].
    + cbn. apply zlen_nonneg.
    + cbn [src_len]. rewrite <- Hsame, <- Hcp, zlen_app. reflexivity.
    + cbn [src_cost]. lia.
Qed.

(** Any setter call: linear in the message, the number of fields and the value. *)
Theorem C79_set grow f T v k G' r : sc f = Some (KSingle T) -> in_type T v -> pval_size v < 2 ^ 63 ->
  spends G (c_set grow T (alen mt) o f v) k G' r ->
  Z.of_nat k <= 200 + 8 * Z.of_nat (length (m_Encode m)) + 10 * Z.of_nat (alen mt) + 3 * pval_size v.
Proof.
  intros Hf Hin Hps Hs. destruct hist_rep as (cs & Hr & Hlt & _). pose proof (rep_len _ _ _ _ Hr) as Hln.
  destruct (hist_args T v Hin Hps) as (vl & x & Ha & Hcan & Hvl & Hx). pose proof (zlen_nonneg x).
  unfold c_set in Hs. rewrite Ha in Hs. cbn [bind catch] in Hs. unfold m_Encode. fold (zlen (mbuf m)).
  assert (H0 : 0 <= f < 2 ^ 59).
  { destruct Hsc as (Hn & Hrange & _). specialize (Hrange _ _ Hf). change (2 ^ 29) with 536870912 in Hn. change (2 ^ 59) with 576460752303423488. lia. }
  destruct (tag_bytes_ok f (wire_of T v) H0) as (tb & Htb & Hmint & _).
  destruct (hist_at f T Hf) as [[Hn Hg]|(l1 & c & r0 & Hb & Hg & [[Ht Hp] Hmin] & Hcf & [Hct Hc] & Hle & Hne)].
  - eapply Z.le_trans; [eapply (cwp_set_first grow (alen mt) o f G m (wire_type (wire_of T v)) vl (Scratch x)); try eassumption|].
    cbn [src_cost src_len]. pose proof (zlen_nonneg (mbuf m)). lia.
  - assert (Hw : wire_type (wire_of T v) = wire_type (cw c)) by (rewrite Hct; apply (conforms_wire_of T v Hin)).
    assert (Htl : zlen tb <= zlen (ct c)).
    { destruct Hmint as [_ [_ Hmint]]. destruct Ht as [_ Ht]. cbn [fst snd crecord] in *. rewrite Hcf, <- Hw in Ht. apply Hmint in Ht. unfold zlen. lia. }
    rewrite Hw in Hs, Htb. eapply Z.le_trans; [eapply (cwp_set_any grow (alen mt) o f G m (cw c) l1 (cp c) r0 vl (Scratch x)); try eassumption|].
    + exact (rep_owf _ _ _ _ Hr).
    + lia.
    + cbn [src_cost src_len]. lia.
Qed.
End history.

(** Decode: a constant for every record, whatever its size; also linear in the bytes. *)
Theorem C79_decode G o s bs rs more n reps k G' r : bytes_at G s bs -> wire rs bs -> zlen bs < 2 ^ 63 ->
  spends G (c_decode more n o reps s) k G' r ->
  (k <= n + 4 + 30 * length rs)%nat /\ (k <= n + 4 + 6 * length bs)%nat.
Proof.
  intros Hb Hw Hl Hs. apply wire_concrete in Hw as (cs & Hv & <- & <-). pose proof (cwp_decode more n o s reps cs G Hb Hv Hl _ _ _ Hs) as Hk.
  pose proof (recs_records cs Hv). pose proof (recs_bytes cs Hv). rewrite map_length. cbv beta in Hk. split; lia.
Qed.

(** Next, on an iterator that stands before an element: a constant for every record up
    to the next one of the field, nothing for the bytes of the element and of the records. *)
Theorem C79_next G it f lb x bs rs more k G' r : bytes_at G it (lb ++ x ++ bs) -> is_varint (Z.of_nat (length x)) lb -> wire rs bs ->
  zlen (lb ++ x ++ bs) < 2 ^ 63 -> spends G (c_find more it f) k G' r ->
  (k <= 10 + 20 * distance f rs)%nat /\ G' = G.
Proof.
  intros Hb Hlb Hw Hl Hs. apply wire_concrete in Hw as (cs & Hv & <- & <-). destruct (cwp_find more it f lb x cs G Hb Hlb Hv Hl _ _ _ Hs) as [-> Hk]. auto.
Qed.

(** Encode and a repeated getter, in every memory whatever. *)
Theorem C79_encode G o k G' r : spends G (load_slice (Buf o)) k G' r -> (k <= 1)%nat /\ G' = G.
Proof.
  intros Hs. revert Hs. assert (H : cwp G (load_slice (Buf o)) (fun k _ G' => (k <= 1)%nat /\ G' = G)); [|intros Hs; exact (H _ _ _ Hs)].
  unfold load_slice. apply cwp_load. intros w _. destruct w; try (apply cwp_stop; auto); apply cwp_ret; auto.
Qed.
Theorem C79_repeated G n o f k G' r : spends G (c_iter n o f) k G' r -> (k <= 4)%nat /\ G' = G.
Proof.
  intros Hs. assert (H : cwp G (c_iter n o f) (fun k _ G' => (k <= 4)%nat /\ G' = G)); [|exact (H _ _ _ Hs)].
  unfold c_iter, c_with_offset.
  assert (HG : cwp G (c_offsets_get n o f) (fun k _ G' => (k <= 3)%nat /\ G' = G)).
  { clear Hs. unfold c_offsets_get. destruct (in_array n f); [|apply cwp_stop; split; [lia|reflexivity]].
    apply cwp_bind. unfold load_num. apply cwp_load. intros w _. apply cwp_ret. destruct (negb _); [apply cwp_ret; split; [lia|reflexivity]|].
    apply cwp_bind. unfold load_ref. apply cwp_load. intros w2 _. apply cwp_ret. destruct (as_ref w2); [|apply cwp_ret; split; [lia|reflexivity]].
    apply cwp_bind. unfold load_map. apply cwp_load. intros w3 _. apply cwp_ret. apply cwp_ret. split; [lia|reflexivity]. }
  apply cwp_bind. eapply cwp_mono; [apply HG|]. cbv beta. intros k1 r1 G1 [Hk ->]. destruct r1 as [[off ok]| | |]; [|split; [lia|reflexivity]..].
  destruct ok; [|apply cwp_ret; split; [lia|reflexivity]].
  apply cwp_bind. unfold load_slice. apply cwp_load. intros w _. apply cwp_ret. apply cwp_stop. split; [lia|reflexivity].
Qed.

(** Building a message call by call: in total linear in the number of calls and the bytes
    given, although a single call may copy the whole buffer; nothing is copied twice
    for more than a constant, since [append] grows by a ninth at least. A setter that
    changes the size of a field that is set is not of this kind (C79_set). *)
Theorem C80_build grow n o l G s k G' r :
  (forall cap need, 0 <= cap < need -> 9 * cap <= 8 * grow cap need) ->
  G !! Buf o = Some (Hdr s) -> 0 <= hlen s <= cap_of s -> Forall (fun a => 0 <= added_size a) l ->
  (forall l1 a l2, l = l1 ++ a :: l2 -> is_setter a ->
     G !! Off o (Z.to_nat (added_to a)) = Some (Num offsetUnset) /\ Forall (fun b => Z.to_nat (added_to b) <> Z.to_nat (added_to a)) l1) ->
  spends G (c_building grow n o l) k G' r ->
  Z.of_nat k <= 400 * Z.of_nat (length l) + 20 * total_size l + 18 * hlen s.
Proof.
  intros Hg Hb Hl Hs Hu Hk.
  assert (Hp : paid o (cap_of s) (hlen s) G 0 0 0) by (exists 0, s; split_and!; [exact Hb|unfold budget; split_and!; lia|lia]).
  pose proof (build_bound grow Hg o (cap_of s) (hlen s) n l G 0 0 0 Hp Hs Hu _ _ _ Hk) as HB. unfold bounded, zlen in HB. lia.
Qed.

(** ** The structs of C77 hold messages *)
Lemma struct_stores G σ o h : struct_at G σ o h -> stores G o (abs σ h).
Proof.
  intros (H1 & H2 & H3 & H4 & H5). split; [exists (h_buf h); auto|]. split; [exact H5|].
  unfold abs, hoffs. cbn [moff om]. destruct (h_m h) as [t|]; [|exact H3]. destruct (H4 t eq_refl) as (x & E1 & E2). rewrite E1. cbn. eauto.
Qed.

(** ** A concrete case *)
Fixpoint count {A} (al : kind -> gset nat -> nat) (G : heap) (p : prog A) : option (nat * (res A * heap)) :=
  match p with
  | Stop r => Some (0%nat, (r, G))
  | Load l k => match G !! l with Some w => match count al G (k w) with Some (n, x) => Some (S n, x) | None => None end | None => None end
  | Store l w k => match G !! l with Some _ => match count al (<[l := w]> G) k with Some (n, x) => Some (S n, x) | None => None end | None => None end
  | New kd m k => let id := pick (al kd) (ids kd G) in
      match count al (new_cells kd m id ∪ G) (k id) with Some (n, x) => Some (S n, x) | None => None end
  end.
Lemma count_spends {A} al (p : prog A) : forall G n r G', count al G p = Some (n, (r, G')) -> spends G p n G' r.
Proof.
  induction p as [r|l k IH|l w k IH|kd m k IH]; intros G n r0 G' H; cbn [count] in H.
  - injection H as <- <- <-. constructor.
  - destruct (G !! l) as [w|] eqn:E; [|discriminate H]. destruct (count al G (k w)) as [[n0 x]|] eqn:Ec; [|discriminate H]. injection H as <- ->.
    econstructor; [exact E|]. apply IH, Ec.
  - destruct (G !! l) as [w0|] eqn:E; [|discriminate H]. destruct (count al _ k) as [[n0 x]|] eqn:Ec; [|discriminate H]. injection H as <- ->.
    econstructor; [eauto|]. apply IH, Ec.
  - cbv zeta in H. destruct (count al _ _) as [[n0 x]|] eqn:Ec; [|discriminate H]. injection H as <- ->.
    econstructor; [|apply IH, Ec]. intros l w0 E Hbl. apply (pick_fresh (al kd) (ids kd G)). apply elem_ids. eauto.
Qed.

(** The message of Demo.v in memory: struct 0, its buffer the whole of array 0. *)
Definition demo_G : heap := list_to_map
  ([(Buf 0, Hdr (Some (mkSl 0 0 (zlen (mbuf demo_m)) (zlen (mbuf demo_m))))); (Ref 0, Ptr None); (Made KStruct 0, Num 0); (Made KArray 0, Num 0)] ++
   imap (fun i x => (Off 0 i, Num x)) (oa (moff demo_m)) ++ imap (fun j z => (Byte 0 (Z.of_nat j), Num z)) (mbuf demo_m)).
Lemma demo_stores : stores demo_G 0 demo_m.
Proof.
  split; [|split].
  - eexists. split; [vm_compute; reflexivity|]. split; [reflexivity|].
    intros j z E. cbn [sarr soff]. do 33 (destruct j as [|j]; [vm_compute in E; injection E as <-; vm_compute; reflexivity|]). discriminate E.
  - intros i x E. do 8 (destruct i as [|i]; [vm_compute in E; injection E as <-; vm_compute; reflexivity|]). discriminate E.
  - vm_compute. reflexivity.
Qed.
Definition demo_al : kind -> gset nat -> nat := fun _ d => size d.
Definition demo_grow (c n : Z) : Z := 2 * c.
Definition cost {A} (p : prog A) : option nat := match count demo_al demo_G p with Some (k, (Ok _, _)) => Some k | _ => None end.
Example C79_case :
  history demo_mt demo_sc demo_os demo_m /\ stores demo_G 0 demo_m /\
  (* the ten-byte field 1; the string 2 and the absent field of a message that has none *)
  cost (c_get PInt32 8 0 1) = Some 12%nat /\ cost (c_get PString 8 0 2) = Some 3%nat /\ cost (c_get PBytes 8 0 7) = Some 1%nat /\
  (* same size, and not *)
  cost (c_set demo_grow PString 8 0 2 (VString [1; 2])) = Some 8%nat /\ 
  (exists k, cost (c_set demo_grow PString 8 0 2 (VString [1; 2; 3])) = Some k /\ (100 < k)%nat).
Proof.
  split; [exact demo_history|]. split; [exact demo_stores|]. split_and!; [vm_compute; reflexivity..|].
  eexists. split; [vm_compute; reflexivity|]. lia.
Qed.

(** The buffer of Demo.v in memory, decoded; its iterator over field 5. *)
Definition demo_in (bs : list Z) : heap := list_to_map
  ([(Buf 0, Hdr None); (Ref 0, Ptr None); (Made KStruct 0, Num 0); (Made KArray 0, Num 0)] ++
   imap (fun i x => (Off 0 i, Num x)) (replicate 8 offsetUnset) ++ imap (fun j z => (Byte 0 (Z.of_nat j), Num z)) bs).
Definition demo_slice (i : nat) : option slice := Some (mkSl 0 (Z.of_nat i) (zlen demo_bs - Z.of_nat i) (zlen demo_bs - Z.of_nat i)).
Lemma demo_bytes_at i : (i <= length demo_bs)%nat -> bytes_at (demo_in demo_bs) (demo_slice i) (drop i demo_bs).
Proof.
  intros Hi. split; [cbn [slen]; unfold zlen; rewrite drop_length; lia|]. intros j z E. cbn [sarr soff]. rewrite lookup_drop in E.
  rewrite <- Nat2Z.inj_add. remember (i + j)%nat as k eqn:Ek. clear Ek.
  do 14 (destruct k as [|k]; [vm_compute in E; injection E as <-; vm_compute; reflexivity|]). discriminate E.
Qed.
Example C79_scan_case :
  wire demo_rs demo_bs /\ bytes_at (demo_in demo_bs) (demo_slice 0) demo_bs /\
  (match count demo_al (demo_in demo_bs) (c_decode 0 8 0 [5] (demo_slice 0)) with Some (k, (Ok None, _)) => Some k | _ => None end = Some 31%nat) /\
  (* the iterator stands after the tag of the record of field 5; two records follow *)
  bytes_at (demo_in demo_bs) (demo_slice 7) ([2] ++ [8; 1] ++ [8; 7; 26; 0]) /\ is_varint (Z.of_nat (length [8; 1])) [2] /\
  wire [(1, WVarint 7); (3, WBytes [])] [8; 7; 26; 0] /\
  (match count demo_al (demo_in demo_bs) (c_find 0 (demo_slice 7) 5) with Some (k, (Ok _, _)) => Some k | _ => None end = Some 5%nat).
Proof.
  split; [exact demo_wire|]. split; [exact (demo_bytes_at 0 ltac:(cbn; lia))|]. split; [vm_compute; reflexivity|].
  split; [exact (demo_bytes_at 7 ltac:(cbn; lia))|]. split; [exact (proj1 (small_varint 2 ltac:(lia)))|]. split; [|vm_compute; reflexivity].
  assert (W := demo_wire). unfold demo_rs, demo_bs in W. cbn [app] in W.
  change [8; 7; 26; 0] with ([8] ++ [7] ++ ([26] ++ [0] ++ [])).
  apply (wire_concrete). exists [mkCrec 1 (WVarint 7) [8] [7]; mkCrec 3 (WBytes []) [26] [0]]. split; [|split; reflexivity].
  repeat (apply Forall_cons; split); [..|constructor].
  - split; [split; [cbn; lia|exact (proj1 (small_varint 8 ltac:(lia)))]|]. exact (proj1 (small_varint 7 ltac:(lia))).
  - split; [split; [cbn; lia|exact (proj1 (small_varint 26 ltac:(lia)))]|]. exists [0]. split; [reflexivity|]. split; [exact (proj1 (small_varint 0 ltac:(lia)))|constructor].
Qed.
Definition demo_adds : list adding := [Add_set PUint64 1 (VNum 300); Add_append 5 (Scratch [8; 1]); Add_set PString 2 (VString [104; 105]); Add_append 5 (View (demo_slice 0))].
Example C80_case :
  demo_in demo_bs !! Buf 0 = Some (Hdr None) /\ Forall (fun a => 0 <= added_size a) demo_adds /\ total_size demo_adds = 18 /\
  (forall l1 a l2, demo_adds = l1 ++ a :: l2 -> is_setter a ->
     demo_in demo_bs !! Off 0 (Z.to_nat (added_to a)) = Some (Num offsetUnset) /\ Forall (fun b => Z.to_nat (added_to b) <> Z.to_nat (added_to a)) l1) /\
  match count demo_al (demo_in demo_bs) (c_building demo_grow 8 0 demo_adds) with Some (k, (Ok _, G')) => Some k | _ => None end = Some 153%nat.
Proof.
  split; [vm_compute; reflexivity|]. split; [unfold demo_adds; repeat apply Forall_cons_2; try apply Forall_nil_2; vm_compute; discriminate|]. split; [reflexivity|]. split; [|vm_compute; reflexivity].
  intros l1 a l2 E Hs. unfold demo_adds in E.
  destruct l1 as [|b1 l1]; injection E; intros; subst; [split; [vm_compute; reflexivity|constructor]|].
  destruct l1 as [|b2 l1]; injection H; intros; subst; [destruct Hs|].
  destruct l1 as [|b3 l1]; injection H0; intros; subst; [split; [vm_compute; reflexivity|repeat apply Forall_cons_2; try apply Forall_nil_2; vm_compute; discriminate]|].
  destruct l1 as [|b4 l1]; injection H1; intros; subst; [destruct Hs|].
  destruct l1; discriminate.
Qed.

Print Assumptions C79_getter.
Print Assumptions C79_set_same.
Print Assumptions C79_set.
Print Assumptions C79_decode.
Print Assumptions C79_next.
Print Assumptions C79_encode.
Print Assumptions C79_repeated.
Print Assumptions C80_build.

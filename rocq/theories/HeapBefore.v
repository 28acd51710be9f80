(** * A setter writes nothing before the record it replaces (C51, C53, C59) *)
From Verif Require Import Heap HeapApi Core Core2 Core4 Core6 HeapFacts HeapSet HeapExec HeapAlias HeapView HeapThms HeapAlloc HeapStable VarintFacts OffsetsFacts RecFacts
  GetFacts Fuel IterFacts ApiInv SetFacts ApiFacts.
From Coq Require Import ZifyBool.

Lemma h_copy_from σ s i src σ' n lo : swf σ s -> h_copy σ s i src = Ok (σ', n) -> lo <= i ->
  only_changes σ σ' (in_part s lo (hcap s)) (fun _ => False).
Proof.
  intros Hs E Hlo. destruct (h_copy_part _ _ _ _ _ _ Hs E) as [(A1 & A2 & A3 & A4) _].
  destruct (h_copy_frame _ _ _ _ _ _ Hs E) as [_ (B1 & B2 & B3 & B4)].
  split_and!; try done. intros a j Ha Hn.
  destruct s as [s|]; [|apply A2; [done|]; cbn; tauto].
  destruct Hs as (l & Hl & H1 & H2 & H3). cbn [in_part in_bytes hcap] in *.
  destruct (decide (a = sarr s /\ soff s <= j < soff s + slen s)) as [Hin|Hin].
  - apply A2; [done|]. intros [-> Hj]. apply Hn. split; [done|]. lia.
  - apply B2; done.
Qed.

Lemma h_copy_n σ s i src σ' n : swf σ s -> h_copy σ s i src = Ok (σ', n) -> 0 <= n <= zlen src /\ 0 <= i /\ i + n <= hlen s.
Proof.
  intros Hs. unfold h_copy. pose proof (zlen_nonneg src). destruct s as [s|]; cbn [h_from].
  - destruct (Z.leb_spec 0 i), (Z.leb_spec i (slen s)); cbn; try done. intros [= _ <-]. lia.
  - destruct (Z.eqb_spec i 0); cbn; try done. intros [= _ <-]. lia.
Qed.

(** Whatever the value, and wherever it is. *)
Lemma hsetSingle_from grow σ h f typ vl v off n tag lo σ' h' : hwf σ h -> hlen (h_buf h) < 2 ^ 63 ->
  put_uvarint MaxVarintLen64 (make_tag f typ) = Ok tag ->
  offsets_get (hoffs σ h) f = Ok (off, true) -> old_len (sbytes σ (h_buf h)) off typ = Ok n ->
  0 <= lo -> off = lo + zlen tag -> 0 <= n -> off + n <= hlen (h_buf h) ->
  hsetSingle grow σ h f typ vl v = Ok (σ', h') ->
  only_changes σ σ' (in_part (h_buf h) lo (hcap (h_buf h))) (fun k => h_m h = Some k).
Proof.
  intros Hwf Hl Ht Hg Ho Hlo Hoff Hn Hend. unfold hsetSingle. rewrite Ht, rbind_Ok, Hg, rbind_Ok, Ho, rbind_Ok. cbn iota.
  pose proof (zlen_nonneg tag) as Htag. pose proof (proj1 Hwf) as Hs.
  assert (Htne : tag <> []).
  { destruct (put_uvarint_res MaxVarintLen64 (make_tag f typ)) as [H|(t & H & Hx)]; rewrite Ht in H; [done|]. injection H as <-. done. }
  destruct (n =? _).
  - destruct (h_copy σ (h_buf h) off vl) as [[σ1 n1]| | |] eqn:E1; try done. rewrite rbind_Ok.
    destruct (h_copy σ1 (h_buf h) _ _) as [[σ2 n2]| | |] eqn:E2; try done. rewrite rbind_Ok. intros [= <- <-].
    pose proof (h_copy_from _ _ _ _ _ _ lo Hs E1 ltac:(lia)) as F1.
    destruct (h_copy_n _ _ _ _ _ _ Hs E1) as (Hn1 & H0 & Hn1').
    pose proof (swf_frame _ _ _ _ _ F1 Hs) as Hs1.
    rewrite (u64_small n1) in E2 by (pows; lia). rewrite u64_small in E2 by (pows; lia).
    pose proof (h_copy_from _ _ _ _ _ _ lo Hs1 E2 ltac:(lia)) as F2.
    eapply only_weaken; [eapply only_trans; [exact F1|exact F2|auto|auto]|done|done].
  - pose proof (get_buf_some _ _ _ _ Hwf Hg) as Hnn.
    rewrite (u64_small (zlen tag)) by (pows; lia). rewrite (u64_small n) by (pows; lia).
    rewrite (u64_small (off - zlen tag)) by (pows; lia). rewrite (u64_small (off + n)) by (pows; lia).
    destruct (h_from (h_buf h) _) as [s| | |] eqn:E1; try done. rewrite rbind_Ok.
    destruct (h_copy σ (h_buf h) _ _) as [[σ1 n1]| | |] eqn:E2; try done. rewrite rbind_Ok.
    rewrite (u64_small (off + n - (off - zlen tag))) by (pows; lia).
    rewrite (u64_small (hlen (h_buf h) - _)) by (pows; lia).
    destruct (h_range (h_buf h) 0 _) as [buf| | |] eqn:E3; try done. rewrite rbind_Ok.
    destruct (adjust_map_keys _ _ _ _) as [o| | |] eqn:E4; try done. rewrite rbind_Ok.
    destruct (put_offs _ _ _) as [σ2 h2] eqn:E5. intros E6.
    pose proof (h_copy_from _ _ _ _ _ _ lo Hs E2 ltac:(lia)) as F1.
    destruct (hcut_ok _ _ _ _ _ _ _ _ _ _ _ _ _ Hwf Hnn E1 E2 E3 E4 E5) as (A & B & Hof & Hb & Harr & _).
    pose proof (hset_new_ok grow σ2 h2 f tag vl v A Htne) as H.
    destruct (offsets_set _ _ _) as [o'| | |]; try done; [|congruence].
    destruct H as (σ3 & h3 & E & _ & _ & _ & F3 & _). rewrite E6 in E. injection E as <- <-.
    destruct B as ((B1 & B2 & B3 & B4) & _ & Bm).
    (* σ -> σ2 *)
    assert (F2 : only_changes σ σ2 (in_part (h_buf h) lo (hcap (h_buf h))) (fun k => h_m h = Some k)).
    { split_and!; try done. intros a j Ha Hp. transitivity (Heap.cell σ1 a j); [unfold Heap.cell, arr_of; rewrite Harr; done|apply F1; done]. }
    eapply only_trans; [exact F2|exact F3| |].
    + intros a j. rewrite Hb. destruct (h_buf h) as [sl|]; [|done]. left. cbn [h_range hlen hcap] in *.
      destruct (_ && _); [|done]. injection E3 as <-. destruct H as [-> Hj]. cbn in *. split; [done|]. lia.
    + intros k Hk. apply Bm. done.
Qed.

(** Where the setter of a set field of a history starts writing. *)
Lemma set_from grow mt sc os σ h f T typ vl v σ' h' rs1 b1 w tb pb rs2 b2 :
  schema_ok mt sc -> history mt sc os (abs σ h) -> ops_size os < 2 ^ 63 -> hwf σ h ->
  sc f = Some (KSingle T) -> typ = ptype_wire_type T ->
  sbytes σ (h_buf h) = b1 ++ tb ++ pb ++ b2 -> wire rs1 b1 -> tag_enc (f, w) tb -> payload_enc w pb ->
  wire rs2 b2 -> occ f rs2 = [] ->
  hsetSingle grow σ h f typ vl v = Ok (σ', h') ->
  only_changes σ σ' (in_part (h_buf h) (zlen b1) (hcap (h_buf h))) (fun k => h_m h = Some k).
Proof.
  intros Hsc Hh Hsz Hwf Hf -> Hb W1 Ht Hp W2 Hocc E.
  destruct (hist_rep mt sc os (abs σ h) Hsc Hh Hsz) as (cs & Hrep & _ & Hlen).
  apply wire_concrete in W1 as (cs1 & V1 & <- & <-). apply wire_concrete in W2 as (cs2 & V2 & <- & <-).
  set (c := mkCrec f w tb pb).
  assert (Hcv : cvalid c) by (split; assumption).
  assert (Hall : Forall cvalid (cs1 ++ c :: cs2)) by (apply Forall_app; split; [|constructor]; assumption).
  assert (Hflat : sbytes σ (h_buf h) = flat (cs1 ++ c :: cs2)).
  { rewrite Hb, flat_app. cbn [flat]. unfold cbytes. cbn [c ct cp]. rewrite <- !app_assoc. reflexivity. }
  pose proof (rep_buf _ _ _ _ Hrep) as Hbuf. cbn [abs mbuf] in Hbuf, Hlen.
  assert (cs = cs1 ++ c :: cs2) as ->.
  { apply flat_det; auto.
    - apply cmin_valid, (rep_min _ _ _ _ Hrep).
    - rewrite <- Hbuf. lia.
    - rewrite <- Hbuf. exact Hflat. }
  pose proof (rep_owf _ _ _ _ Hrep) as Howf. cbn [abs moff] in Howf.
  pose proof (rep_len _ _ _ _ Hrep) as HL. cbn [abs moff] in HL.
  assert (Hr : in_range (hoffs σ h) f) by (unfold in_range; rewrite HL; eapply Hsc, Hf).
  pose proof (offsets_get_eq _ _ Howf Hr) as Hg.
  pose proof (rep_idx _ _ _ _ Hrep) as Hi. cbn [abs moff] in Hi.
  assert (Hrepf : is_repeated (reps mt) f = false).
  { destruct (is_repeated (reps mt) f) eqn:E'; [|reflexivity]. apply is_repeated_In in E'. exfalso. eapply Hsc; eassumption. }
  assert (Hof : ofun (hoffs σ h) f = Some (zlen (flat cs1 ++ tb))).
  { rewrite (Hi f Hr). unfold pick. rewrite Hrepf, poss_app, last_app. cbn [poss c cf]. rewrite Z.eqb_refl.
    rewrite (proj2 (poss_nil_iff f _ cs2) Hocc). cbn [last ct]. rewrite zlen_app. done. }
  rewrite Hof in Hg.
  assert (Hty : wire_type w = ptype_wire_type T).
  { pose proof (rep_typed _ _ _ _ Hrep) as Hty. apply Forall_app in Hty as [_ Hty]. apply Forall_cons in Hty as [[_ Hc'] _].
    unfold well_typed in Hc'. cbn [crecord c cf cw fst snd] in Hc'. rewrite Hf in Hc'. destruct Hc' as [-> _]. done. }
  pose proof (zlen_nonneg (flat cs1)). pose proof (zlen_nonneg tb). pose proof (zlen_nonneg pb). pose proof (zlen_nonneg (flat cs2)).
  pose proof (sbytes_length σ _ (proj1 Hwf)) as HLB. rewrite Hb, !zlen_app in HLB, Hlen.
  assert (Hfr : 0 <= f < 2 ^ 59).
  { destruct Hsc as [Hn _]. unfold in_range in Hr. rewrite HL in Hr. revert Hn. pows. lia. }
  destruct (tag_bytes_ok f w Hfr) as (tb' & Htb & Hmin & _).
  assert (tb' = tb) as ->.
  { eapply minimal_varint_unique; [apply Hmin|].
    pose proof (rep_min _ _ _ _ Hrep) as Hm. apply Forall_app in Hm as [_ Hm]. apply Forall_cons in Hm as [[_ Hm] _]. apply Hm. }
  rewrite <- Hty in E.
  eapply (hsetSingle_from grow σ h f (wire_type w) vl v (zlen (flat cs1 ++ tb)) (zlen pb) tb); try done.
  - lia.
  - replace (sbytes σ (h_buf h)) with ((flat cs1 ++ tb) ++ pb ++ flat cs2) by (rewrite Hb, <- !app_assoc; done).
    apply old_len_ok; [done|]. lia.
  - rewrite zlen_app. lia.
  - rewrite zlen_app. lia.
Qed.

Lemma h_set_from grow mt sc os σ h f T σ' h' rs1 b1 w tb pb rs2 b2 :
  schema_ok mt sc -> history mt sc os (abs σ h) -> ops_size os < 2 ^ 63 -> hwf σ h -> sc f = Some (KSingle T) ->
  sbytes σ (h_buf h) = b1 ++ tb ++ pb ++ b2 -> wire rs1 b1 -> tag_enc (f, w) tb -> payload_enc w pb ->
  wire rs2 b2 -> occ f rs2 = [] ->
  ((exists v, h_set grow T σ h f v = Ok (σ', h')) \/
   ((T = PString \/ T = PBytes) /\ exists s, h_set_view grow σ h f s = Ok (σ', h'))) ->
  only_changes σ σ' (in_part (h_buf h) (zlen b1) (hcap (h_buf h))) (fun k => h_m h = Some k).
Proof.
  intros Hsc Hh Hsz Hwf Hf Hb W1 Ht Hp W2 Hocc [[v E]|[HT [s E]]].
  - unfold h_set in E. destruct (set_args T v) as [[[typ vl] x]| | |] eqn:Ea; try done. rewrite rbind_Ok in E.
    assert (typ = ptype_wire_type T) as Htyp.
    { clear -Ea. destruct T, v; cbn [set_args] in Ea; try done;
        repeat match type of Ea with context [rbind ?p _] => destruct p; try done; cbn [rbind] in Ea end;
        injection Ea as <- _ _; reflexivity. }
    exact (set_from grow mt sc os σ h f T typ vl _ σ' h' rs1 b1 w tb pb rs2 b2 Hsc Hh Hsz Hwf Hf Htyp Hb W1 Ht Hp W2 Hocc E).
  - unfold h_set_view in E. destruct (put_uvarint _ _) as [vl| | |]; try done. rewrite rbind_Ok in E.
    assert (WireBytes = ptype_wire_type T) as Htyp by (destruct HT as [-> | ->]; done).
    exact (set_from grow mt sc os σ h f T WireBytes vl _ σ' h' rs1 b1 w tb pb rs2 b2 Hsc Hh Hsz Hwf Hf Htyp Hb W1 Ht Hp W2 Hocc E).
Qed.

(** * Property C68: accessors read the decoded buffer in place *)
From Verif Require Import Heap HeapApi Core VarintFacts OffsetsFacts RecFacts DecodeFacts GetFacts ApiInv HeapFacts HeapSet HeapExec Demo P_Heap.
From stdpp Require Import fin_maps gmap.
#[local] Open Scope Z_scope.

(** The client may store other bytes into existing arrays (for example through
    the slice it passed to Decode), whatever they are. *)
Definition bytes_stored (σ σ' : mem) : Prop :=
  (forall a l, arrs σ !! a = Some l -> exists l', arrs σ' !! a = Some l' /\ length l' = length l) /\ maps σ' = maps σ.

(** A struct decodes the slice [s], which holds a well-formed message whose last
    record of the (non-repeated) field [f] is [tb ++ pb].  Later the client
    overwrites bytes, also bytes of [s], with anything.  Then the accessor of [f]
    reads what is now where the value [pb] was, and nothing else: any encoding
    [pb'] of any value [w'] of the right type, however long, is read as such.
    (So overwriting bytes outside [pb] does not change what it returns, and
    overwriting [pb] does.) *)
Theorem C68_reads_in_place mt σ h s rs1 rs2 f w b1 tb pb b2 σ1 h1 err σ2 l1 pb' r w' T :
  hwf σ h -> swf σ s -> of_type mt (abs σ h) ->
  sbytes σ s = b1 ++ tb ++ pb ++ b2 -> Z.of_nat (length (sbytes σ s)) < 2 ^ 63 ->
  wire rs1 b1 -> tag_enc (f, w) tb -> payload_enc w pb -> wire rs2 b2 -> occ f rs2 = [] ->
  Forall (fun r => r.1 < Z.of_nat (alen mt)) (rs1 ++ (f, w) :: rs2) -> ~ In f (reps mt) ->
  h_decode mt σ h s = Ok (err, σ1, h1) -> bytes_stored σ1 σ2 ->
  sbytes σ2 s = l1 ++ pb' ++ r -> length l1 = length (b1 ++ tb) -> payload_enc w' pb' -> conforms T w' ->
  exists v, h_get T σ2 h1 f = Ok v /\ hval_of σ2 v = value_of T w'.
Proof.
  intros Hwf Hs Ht Hbs Hl Hw1 Htag Hp Hw2 Hocc Hr Hnr Hd [Hst Hmaps] Hnew Hlen Hp' Hc.
  apply wire_concrete in Hw1 as (cs1 & Hv1 & <- & <-). apply wire_concrete in Hw2 as (cs2 & Hv2 & <- & <-).
  set (c := mkCrec f w tb pb).
  assert (Hcv : cvalid c) by (split; assumption).
  assert (Hflat : flat (cs1 ++ c :: cs2) = sbytes σ s).
  { rewrite Hbs, flat_app. cbn [flat]. unfold cbytes. cbn [ct cp c]. rewrite <- !app_assoc. reflexivity. }
  destruct (decode_msg mt (abs σ h) (cs1 ++ c :: cs2)) as (o' & He & Hwo & Hlo & Hi & _).
  { apply Forall_app. split; [exact Hv1|]. constructor; assumption. }
  { rewrite Hflat. exact Hl. }
  { exact (of_type_zlen _ _ Ht). }
  { apply Forall_app in Hr as [Hr1 Hr2]. apply Forall_cons in Hr2 as [Hr2 Hr3]. apply Forall_app. split; [|constructor].
    - rewrite Forall_map in Hr1. exact Hr1.
    - exact Hr2.
    - rewrite Forall_map in Hr3. exact Hr3. }
  rewrite Hflat in He. pose proof (h_decode_refines mt σ h s Hwf Hs) as Href. rewrite He in Href.
  destruct Href as (b & Hd' & H1 & Habs & Hwf1 & (Harr & Hbuf & _ & _)). rewrite Hd in Hd'. injection Hd' as <-. cbn [fst snd] in *.
  assert (Ho2 : hoffs σ2 h1 = o').
  { transitivity (hoffs σ1 h1); [unfold hoffs; rewrite Hmaps; reflexivity|]. injection Habs as _ E. exact E. }
  assert (Habs2 : abs σ2 h1 = mkMsg (l1 ++ pb' ++ r) o') by (unfold abs; rewrite Ho2, Hbuf, Hnew; reflexivity).
  assert (Hwf2 : hwf σ2 h1).
  { destruct Hwf1 as (Hw1 & Hw2 & Hw3). split_and!; [|rewrite Hmaps; exact Hw2|exact Hw3].
    destruct (h_buf h1) as [s1|]; [|done]. destruct Hw1 as (l & Hl1 & H2 & H3 & H4). destruct (Hst _ _ Hl1) as (l' & Hl' & Hll).
    exists l'. split_and!; try done; unfold zlen in *; lia. }
  pose proof (h_get_refines T σ2 h1 f Hwf2) as Hg. rewrite Habs2 in Hg.
  assert (Hfr : 0 <= f < Z.of_nat (alen mt)).
  { apply Forall_app in Hr as [_ Hr]. apply Forall_cons in Hr as [Hr _]. destruct Htag as [Hf0 _]. cbn in *. lia. }
  assert (Hir : in_range o' f) by (unfold in_range; lia).
  assert (Hsame : length (sbytes σ2 s) = length (sbytes σ s)).
  { destruct s as [s|]; [|done]. destruct Hs as (l & Hls & H2 & H3 & H4). rewrite <- Harr in Hls.
    destruct (Hst _ _ Hls) as (l' & Hl' & Hll). cbn [sbytes]. unfold arr_of. rewrite Hl'. rewrite Harr in Hls. rewrite Hls. cbn.
    rewrite !take_length, !drop_length, Hll. reflexivity. }
  rewrite (m_get_some T o' f l1 w' pb' r) in Hg.
  - destruct Hg as (v & Hv & Hh). exists v. auto.
  - exact Hwo.
  - exact Hir.
  - rewrite (Hi f Hir). unfold pick. replace (is_repeated (reps mt) f) with false; cycle 1.
    { symmetry. apply not_true_iff_false. intros E. apply Hnr. unfold is_repeated in E. apply existsb_exists in E as (x & Hx & Hxe).
      apply Z.eqb_eq in Hxe. subst. exact Hx. }
    rewrite poss_app. cbn [poss cf c]. rewrite Z.eqb_refl, (proj2 (poss_nil_iff f _ cs2) Hocc), last_snoc. f_equal.
    cbn [ct]. rewrite app_length in Hlen. unfold zlen. cbn [ct c]. lia.
  - exact Hp'.
  - exact Hc.
  - rewrite <- Hnew. unfold zlen. rewrite Hsame. exact Hl.
Qed.

(** A field that was not in the message stays unset, whatever is stored. *)
Theorem C68_absent_stays_absent mt σ h s rs f σ1 h1 err σ2 T :
  hwf σ h -> swf σ s -> of_type mt (abs σ h) -> Z.of_nat (length (sbytes σ s)) < 2 ^ 63 ->
  wire rs (sbytes σ s) -> Forall (fun r => r.1 < Z.of_nat (alen mt)) rs -> 0 <= f < Z.of_nat (alen mt) -> occ f rs = [] ->
  h_decode mt σ h s = Ok (err, σ1, h1) -> bytes_stored σ1 σ2 ->
  exists v, h_get T σ2 h1 f = Ok v /\ hval_of σ2 v = default_of T.
Proof.
  intros Hwf Hs Ht Hl Hw Hr Hf Hocc Hd [Hst Hmaps].
  apply wire_concrete in Hw as (cs & Hv & <- & Hflat).
  destruct (decode_msg mt (abs σ h) cs) as (o' & He & Hwo & Hlo & Hi & _).
  { exact Hv. }
  { rewrite Hflat. exact Hl. }
  { exact (of_type_zlen _ _ Ht). }
  { rewrite Forall_map in Hr. exact Hr. }
  rewrite Hflat in He. pose proof (h_decode_refines mt σ h s Hwf Hs) as Href. rewrite He in Href.
  destruct Href as (b & Hd' & H1 & Habs & Hwf1 & (Harr & Hbuf & _ & _)). rewrite Hd in Hd'. injection Hd' as <-. cbn [fst snd] in *.
  assert (Ho2 : hoffs σ2 h1 = o').
  { transitivity (hoffs σ1 h1); [unfold hoffs; rewrite Hmaps; reflexivity|]. injection Habs as _ E. exact E. }
  assert (Hwf2 : hwf σ2 h1).
  { destruct Hwf1 as (Hw1 & Hw2 & Hw3). split_and!; [|rewrite Hmaps; exact Hw2|exact Hw3].
    destruct (h_buf h1) as [s1|]; [|done]. destruct Hw1 as (l & Hl1 & H2 & H3 & H4). destruct (Hst _ _ Hl1) as (l' & Hl' & Hll).
    exists l'. split_and!; try done; unfold zlen in *; lia. }
  pose proof (h_get_refines T σ2 h1 f Hwf2) as Hg.
  rewrite (m_get_none T (abs σ2 h1) f) in Hg.
  - destruct Hg as (v & Hgv & Hh). exists v. auto.
  - cbn. rewrite Ho2. exact Hwo.
  - cbn. rewrite Ho2. unfold in_range. lia.
  - cbn. rewrite Ho2, (Hi f) by (unfold in_range; lia). rewrite (proj2 (poss_nil_iff f 0 cs) Hocc). apply pick_nil.
Qed.

(** A message [8 1 18 2 'h' 'i' 8 150 1] is decoded from array 0; then the client
    overwrites everything before the last record with 255s and the varint by 7. *)
Definition place_σ : mem := mkMem {[ 0%nat := [8; 1; 18; 2; 104; 105; 8; 150; 1] ]} ∅.
Definition place_σ2 : mem := mkMem {[ 0%nat := [255; 255; 255; 255; 255; 255; 255; 7; 255] ]} ∅.
Definition place_s : option slice := Some (mkSl 0 0 9 9).
Definition place_h : hmsg := mkH None (replicate 8 0) None.
Example C68_case :
  hwf place_σ place_h /\ swf place_σ place_s /\ of_type demo_mt (abs place_σ place_h) /\
  sbytes place_σ place_s = [8; 1; 18; 2; 104; 105] ++ [8] ++ [150; 1] ++ [] /\
  wire [(1, WVarint 1); (2, WBytes [104; 105])] [8; 1; 18; 2; 104; 105] /\ tag_enc (1, WVarint 150) [8] /\ payload_enc (WVarint 150) [150; 1] /\
  ~ In 1 (reps demo_mt) /\
  exists h1, h_decode demo_mt place_σ place_h place_s = Ok (None, place_σ, h1) /\ bytes_stored place_σ place_σ2 /\
    sbytes place_σ2 place_s = [255; 255; 255; 255; 255; 255; 255] ++ [7] ++ [255] /\ payload_enc (WVarint 7) [7] /\ conforms PInt32 (WVarint 7) /\
    h_get PInt32 place_σ h1 1 = Ok (HVal (VNum 150)) /\ h_get PInt32 place_σ2 h1 1 = Ok (HVal (VNum 7)).
Proof.
  split_and!.
  - split_and!; [exact I|exact I|]. intros _. repeat constructor.
  - exists [8; 1; 18; 2; 104; 105; 8; 150; 1]. split; [reflexivity|]. unfold zlen. cbn. lia.
  - reflexivity.
  - reflexivity.
  - apply (wire_cons (1, WVarint 1) _ [8; 1] [18; 2; 104; 105]).
    + exists [8], [1]. split_and!; [reflexivity|split; [cbn; lia|apply small_varint; cbn; lia]|apply small_varint; lia].
    + apply (wire_cons (2, WBytes [104; 105]) _ [18; 2; 104; 105] []); [|constructor].
      exists [18], [2; 104; 105]. split_and!; [reflexivity|split; [cbn; lia|apply small_varint; cbn; lia]|].
      exists [2]. split_and!; [reflexivity|apply small_varint; cbn; lia|repeat constructor; unfold is_byte; lia].
  - split; [cbn; lia|apply small_varint; cbn; lia].
  - exists [150], 1. split_and!; try reflexivity; try lia; try (cbn; lia); repeat constructor; lia.
  - intros [H|[]]. discriminate.
  - eexists. split; [vm_compute; reflexivity|]. split_and!.
    + split; [|reflexivity]. intros a l Ha. cbn in Ha. apply lookup_singleton_Some in Ha as [<- <-]. eexists. split; [apply lookup_singleton|reflexivity].
    + reflexivity.
    + apply small_varint. lia.
    + split; [reflexivity|exact I].
    + vm_compute. reflexivity.
    + vm_compute. reflexivity.
Qed.

Print Assumptions C68_reads_in_place.
Print Assumptions C68_absent_stays_absent.

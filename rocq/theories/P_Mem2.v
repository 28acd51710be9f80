(** * Properties C47, C51-C53: allocation, outstanding views, copies of structs *)
From Verif Require Import Heap HeapApi Core HeapFacts HeapSet HeapExec HeapRead HeapView HeapAlias HeapThms HeapAlloc HeapStable HeapBefore Demo P_Heap.

(** ** C47: allocation *)

(** Any schedule of reading calls of any readers allocates nothing, if the
    buffers have a capacity of at most 65535 bytes: no array, no map, no map
    entry ([no_alloc], HeapAlloc.v). *)
Theorem C47_reads σ ts sch ans σ' :
  Forall (reader_small σ) ts -> Forall (fun p => rcall_small σ p.2) sch ->
  rrun σ ts sch = (ans, Ok σ') -> no_alloc σ σ'.
Proof. apply rrun_no_alloc. Qed.

(** For Decode the length of the message counts, not the capacity of the buffer. *)
Theorem C47_decode mt σ h s err σ' h' :
  swf σ s -> hlen s <= 65535 -> h_decode mt σ h s = Ok (err, σ', h') -> no_alloc σ σ'.
Proof. intros Hs Hl. apply h_decode_no_alloc. rewrite (sbytes_length σ s Hs). done. Qed.

Theorem C47_reset σ h s σ' h' : h_reset σ h s = Ok (σ', h') -> no_alloc σ σ'.
Proof. intros H. apply (h_reset_no_alloc _ _ _ _ _ H). Qed.

(** A sequence of setters and AppendTo calls, with arbitrary arguments, allocates
    nothing if the message after each call fits the capacity of the buffer and
    65535 bytes; the buffer stays where it is. *)
Theorem C47_mutations grow ms σ h σ' h' :
  hwf σ h -> h_muts grow σ h ms = Ok (σ', h') ->
  (forall ms1 ms2 σ1 h1, ms = ms1 ++ ms2 -> h_muts grow σ h ms1 = Ok (σ1, h1) ->
     hlen (h_buf h1) <= hcap (h_buf h) /\ hlen (h_buf h1) <= 65535) ->
  no_alloc σ σ' /\ same_room (h_buf h) (h_buf h').
Proof. apply h_muts_room. Qed.

(** The readers of C29_case are small; three mutations fit the spare capacity of
    the demo message (33 bytes, 7 spare). *)
Definition room_muts : list hmut := [MSet PSint32 6 (VNum 40); MSetView 3 (Some (mkSl 5 1 2 3)); MAppend 5 (Scratch [7])].
Example C47_case :
  Forall (reader_small demo_σ) demo_readers /\ Forall (fun p => rcall_small demo_σ p.2) demo_reads /\
  match h_muts tight demo_σ demo_h room_muts with
  | Ok (σ', h') => hlen (h_buf h') = 38 /\ hcap (h_buf h') = 40
  | _ => False
  end /\
  (forall ms1 ms2 σ1 h1, room_muts = ms1 ++ ms2 -> h_muts tight demo_σ demo_h ms1 = Ok (σ1, h1) ->
     hlen (h_buf h1) <= hcap (h_buf demo_h) /\ hlen (h_buf h1) <= 65535).
Proof.
  assert (Hs : small demo_σ (h_buf demo_h)).
  { split; [apply demo_abs|]. vm_compute. discriminate. }
  assert (Hn : small demo_σ None) by apply small_None.
  split_and!.
  - repeat (apply Forall_cons; split); try apply Forall_nil; split; cbn [r_structs r_iters];
      repeat (apply Forall_cons; split); try apply Forall_nil; done.
  - repeat (apply Forall_cons; split); try apply Forall_nil; cbn; done.
  - vm_compute. auto.
  - intros ms1 ms2 σ1 h1 Hms. unfold room_muts in Hms.
    destruct ms1 as [|m1 ms1]; cbn in Hms.
    { intros [= <- <-]. vm_compute. split; discriminate. }
    injection Hms as <- Hms. destruct ms1 as [|m2 ms1]; cbn in Hms.
    { intros E. apply (f_equal (fun r => match r with Ok (_, h) => h_buf h | _ => None end)) in E. cbv beta iota in E.
      rewrite <- E. vm_compute. split; discriminate. }
    injection Hms as <- Hms. destruct ms1 as [|m3 ms1]; cbn in Hms.
    { intros E. apply (f_equal (fun r => match r with Ok (_, h) => h_buf h | _ => None end)) in E. cbv beta iota in E.
      rewrite <- E. vm_compute. split; discriminate. }
    injection Hms as <- Hms. destruct ms1 as [|m4 ms1]; [|discriminate Hms].
    intros E. apply (f_equal (fun r => match r with Ok (_, h) => h_buf h | _ => None end)) in E. cbv beta iota in E.
      rewrite <- E. vm_compute. split; discriminate.
Qed.

(** Both bounds are needed: a setter that exceeds the capacity allocates an
    array, a message of 65537 bytes makes Decode allocate a map. *)
Definition big_bytes : list Z := [26; 252; 255; 3] ++ replicate 65532 0 ++ [8].
Example C47_sharp :
  (let σ := mkMem {[ 0%nat := [] ]} ∅ in
   match h_set tight PBool σ (mkH (Some (mkSl 0 0 0 0)) [0; 0; 0] None) 1 (VBool true) with
   | Ok (σ', _) => arrs σ !! 2%nat = None /\ arrs σ' !! 2%nat = Some [8; 1] | _ => False end) /\
  (let bs := big_bytes ++ [5] in let σ := mkMem {[ 0%nat := bs ]} ∅ in
   zlen bs = 65538 /\
   match h_decode (mkMtype 4 []) σ (mkH None [0; 0; 0; 0] None) (Some (mkSl 0 0 (zlen bs) (zlen bs))) with
   | Ok (None, σ', h') => h_m h' = Some 0%nat /\ maps σ' !! 0%nat = Some {[ 1 := 65537 ]} | _ => False end).
Proof.
  split; vm_compute; auto.
Qed.

(** ** C51: outstanding slices, iterators and sub-messages *)

(** Between [σ] and [σ'], nothing changes for a holder of slices, iterators or
    sub-message structs none of whose bytes lie in [P]. *)
Definition undisturbed (σ σ' : mem) (h : hmsg) (P : nat -> Z -> Prop) : Prop :=
  (forall d, swf σ d -> (forall a j, in_bytes d a j -> ~ P a j) ->
     sbytes σ' d = sbytes σ d /\ forall k g, h_finds k σ' d g = h_finds k σ d g) /\
  (forall c, hwf σ c -> (forall a j, in_bytes (h_buf c) a j -> ~ P a j) ->
     (forall l, h_m c = Some l -> h_m h <> Some l) -> abs σ' c = abs σ c).

Lemma undisturbed_frame σ σ' h P : only_changes σ σ' P (fun k => h_m h = Some k) -> undisturbed σ σ' h P.
Proof.
  intros H. split.
  - intros d Hd Hp. split; [eapply sbytes_frame; eauto|]. intros k g. eapply h_finds_frame; eauto.
  - intros c (Hc & Hm & _) Hp Hl. unfold abs, hoffs. f_equal; [eapply sbytes_frame; eauto|].
    f_equal. destruct (h_m c) as [l|]; [|done]. destruct Hm as [m Hm]. rewrite Hm. apply H; [done|]. apply Hl. done.
Qed.

(** AppendTo, on any struct. *)
Theorem C51_append_partial grow σ h f v σ' h' :
  hwf σ h -> h_append_bytes grow σ h f v = Ok (σ', h') -> undisturbed σ σ' h (in_spare (h_buf h)).
Proof. intros Hwf E. apply undisturbed_frame. eapply append_bytes_spare; eauto. Qed.

(** A setter of a field that is not set. *)
Theorem C51_first_set_partial grow mt sc os σ h f T v σ' h' :
  schema_ok mt sc -> history mt sc os (abs σ h) -> ops_size os < 2 ^ 63 -> hwf σ h ->
  sc f = Some (KSingle T) -> spec_run sc os f = [] ->
  (h_set grow T σ h f v = Ok (σ', h') \/ exists s, h_set_view grow σ h f s = Ok (σ', h')) ->
  undisturbed σ σ' h (in_spare (h_buf h)).
Proof.
  intros Hsc Hh Hsz Hwf Hf Hu E. apply undisturbed_frame.
  pose proof (history_unset mt sc os (abs σ h) f T Hsc Hh Hsz Hf Hu) as Hg. cbn [abs moff] in Hg.
  destruct E as [E|[s E]].
  - unfold h_set in E. destruct (set_args T v) as [[[typ vl] x]| | |]; try done. cbn [rbind] in E.
    eapply hsetSingle_unset; eauto.
  - unfold h_set_view in E. destruct (put_uvarint _ _) as [vl| | |]; try done. cbn [rbind] in E.
    eapply hsetSingle_unset; eauto.
Qed.

(** A setter of a field whose old value has the size of the new one: only the old
    value is overwritten. *)
Theorem C51_same_size_partial grow mt sc os σ h f T v σ' h' rs1 b1 w tb pb rs2 b2 pb' :
  schema_ok mt sc -> history mt sc os (abs σ h) -> hwf σ h -> sc f = Some (KSingle T) -> in_type T v ->
  ops_size os + 20 + pval_size v < 2 ^ 63 ->
  sbytes σ (h_buf h) = b1 ++ tb ++ pb ++ b2 -> wire rs1 b1 -> tag_enc (f, w) tb -> payload_enc w pb ->
  wire rs2 b2 -> occ f rs2 = [] ->
  canonical_payload (wire_of T v) pb' -> length pb' = length pb ->
  h_set grow T σ h f v = Ok (σ', h') ->
  undisturbed σ σ' h (in_part (h_buf h) (zlen (b1 ++ tb)) (zlen (b1 ++ tb ++ pb))).
Proof.
  intros. apply undisturbed_frame.
  eapply only_weaken; [eapply same_size_part; eauto|done|done].
Qed.

(** A setter of a set field, of any size, with any argument (also one that is a
    slice of the message itself): nothing before the old record changes, so
    whatever a client holds of the records before it stays intact. *)
Theorem C51_any_set_before_partial grow mt sc os σ h f T σ' h' rs1 b1 w tb pb rs2 b2 :
  schema_ok mt sc -> history mt sc os (abs σ h) -> ops_size os < 2 ^ 63 -> hwf σ h -> sc f = Some (KSingle T) ->
  sbytes σ (h_buf h) = b1 ++ tb ++ pb ++ b2 -> wire rs1 b1 -> tag_enc (f, w) tb -> payload_enc w pb ->
  wire rs2 b2 -> occ f rs2 = [] ->
  ((exists v, h_set grow T σ h f v = Ok (σ', h')) \/
   ((T = PString \/ T = PBytes) /\ exists s, h_set_view grow σ h f s = Ok (σ', h'))) ->
  undisturbed σ σ' h (in_part (h_buf h) (zlen b1) (hcap (h_buf h))).
Proof. intros. apply undisturbed_frame. eapply h_set_from; eauto. Qed.

(** Otherwise the bytes behind the old value move, under the feet of whoever
    holds them: the message is field 1 = 5, field 2 = "hi"; the client holds the
    string and sets field 1 to 300. *)
Definition held_os : list op := [OSet 1 (VNum 5); OSet 2 (VString [104; 105])].
Definition held_put := h_put (fun _ => 4%nat) (mkMem ∅ ∅)
  match run demo_mt demo_sc (msg_zero demo_mt) held_os with Ok m => m | _ => msg_zero demo_mt end.
Lemma held_hist : hwf held_put.1 held_put.2 /\ history demo_mt demo_sc held_os (abs held_put.1 held_put.2).
Proof.
  unfold held_put.
  destruct (h_put (fun _ => 4%nat) (mkMem ∅ ∅) match run demo_mt demo_sc (msg_zero demo_mt) held_os with Ok m => m | _ => msg_zero demo_mt end) as [σ h] eqn:E.
  destruct (h_put_ok _ _ _ _ _ E) as (_ & Hw & Ha & _). cbn [fst snd]. split; [done|]. rewrite Ha. split.
  - repeat (apply Forall_cons; split; [eexists; split; [reflexivity|]; cbn; try lia; repeat constructor; unfold is_byte; lia|]); constructor.
  - vm_compute; reflexivity.
Qed.
Theorem C51_resize_refuted :
  exists σ h d σ' h',
    hwf σ h /\ history demo_mt demo_sc held_os (abs σ h) /\
    h_get PString σ h 2 = Ok (HStr (Some d)) /\ sbytes σ (Some d) = [104; 105] /\
    h_set tight PInt32 σ h 1 (VNum 300) = Ok (σ', h') /\ sbytes σ' (Some d) = [8; 172].
Proof.
  exists held_put.1, held_put.2. eexists _, _, _. split; [apply held_hist|]. split; [apply held_hist|].
  split; [vm_compute; reflexivity|]. split; [vm_compute; reflexivity|]. split; [vm_compute; reflexivity|]. vm_compute. reflexivity.
Qed.

(** An iterator over field 5 of the demo message and the string of field 2, while
    an element is appended. *)
Example C51_case :
  exists it d, h_iter demo_σ demo_h 5 = Ok it /\ h_get PString demo_σ demo_h 2 = Ok (HStr d) /\
    swf demo_σ it /\ swf demo_σ d /\
    (forall a j, in_bytes it a j -> ~ in_spare (h_buf demo_h) a j) /\ (forall a j, in_bytes d a j -> ~ in_spare (h_buf demo_h) a j) /\
    (exists σ' h', h_append_bytes tight demo_σ demo_h 5 (Scratch [7]) = Ok (σ', h')).
Proof.
  eexists _, _. split; [vm_compute; reflexivity|]. split; [vm_compute; reflexivity|].
  assert (Hb : h_buf demo_h = Some (mkSl 6 0 33 40)) by (vm_compute; reflexivity).
  pose proof (proj1 (proj1 demo_abs)) as Hs. rewrite Hb in Hs. destruct Hs as (l & Hl & HH). cbn in HH.
  split_and!.
  - exists l. cbn. split; [done|]. lia.
  - exists l. cbn. split; [done|]. lia.
  - intros a j. rewrite Hb. cbn. lia.
  - intros a j. rewrite Hb. cbn. lia.
  - eexists _, _. vm_compute. reflexivity.
Qed.
(** The string of field 2 of the held message, while field 6 is set for the first
    time, and while field 1 is set to 6. *)
Example C51_case2 :
  exists d, h_get PString held_put.1 held_put.2 2 = Ok (HStr (Some d)) /\ swf held_put.1 (Some d) /\
    spec_run demo_sc held_os 6 = [] /\ (exists σ' h', h_set tight PSint32 held_put.1 held_put.2 6 (VNum 1) = Ok (σ', h')) /\
    sbytes held_put.1 (h_buf held_put.2) = [] ++ [8] ++ [5] ++ [18; 2; 104; 105] /\
    wire [] [] /\ tag_enc (1, WVarint 5) [8] /\ payload_enc (WVarint 5) [5] /\
    wire [(2, WBytes [104; 105])] [18; 2; 104; 105] /\ canonical_payload (wire_of PInt32 (VNum 6)) [6] /\
    (exists σ' h', h_set tight PInt32 held_put.1 held_put.2 1 (VNum 6) = Ok (σ', h')) /\
    (forall a j, in_bytes (Some d) a j -> ~ in_part (h_buf held_put.2) 1 2 a j).
Proof.
  eexists. split; [vm_compute; reflexivity|]. split.
  { eexists. split; [vm_compute; reflexivity|]. vm_compute. split_and!; discriminate || reflexivity. }
  split; [vm_compute; reflexivity|]. split; [eexists _, _; vm_compute; reflexivity|]. split; [vm_compute; reflexivity|].
  split; [constructor|]. split; [split; [cbn; lia|apply small_varint; cbn; lia]|]. split; [apply small_varint; lia|].
  split.
  { apply (wire_cons (2, WBytes [104; 105]) [] [18; 2; 104; 105] []); [|constructor].
    exists [18], [2; 104; 105]. split_and!; [reflexivity|split; [cbn; lia|apply small_varint; cbn; lia]|].
    exists [2]. split_and!; [reflexivity|apply small_varint; cbn; lia|repeat constructor; unfold is_byte; lia]. }
  split; [apply small_varint; cbn; lia|]. split; [eexists _, _; vm_compute; reflexivity|].
  assert (Hb : h_buf held_put.2 = Some (mkSl 0 0 6 10)) by (vm_compute; reflexivity).
  intros a j. rewrite Hb. cbn. lia.
Qed.

(** With the order of the held message's fields exchanged: field 2 = "hi", field 1 = 5, the string
    survives setting field 1 to 300. *)
Definition held2_os : list op := [OSet 2 (VString [104; 105]); OSet 1 (VNum 5)].
Definition held2_put := h_put (fun _ => 4%nat) (mkMem ∅ ∅)
  match run demo_mt demo_sc (msg_zero demo_mt) held2_os with Ok m => m | _ => msg_zero demo_mt end.
Example C51_case3 :
  exists d, h_get PString held2_put.1 held2_put.2 2 = Ok (HStr (Some d)) /\ swf held2_put.1 (Some d) /\
    sbytes held2_put.1 (h_buf held2_put.2) = [18; 2; 104; 105] ++ [8] ++ [5] ++ [] /\ h_m held2_put.2 = None /\
    (forall a j, in_bytes (Some d) a j -> ~ in_part (h_buf held2_put.2) 4 (hcap (h_buf held2_put.2)) a j) /\
    (exists σ' h', h_set tight PInt32 held2_put.1 held2_put.2 1 (VNum 300) = Ok (σ', h') /\
       sbytes σ' (Some d) = [104; 105] /\ h_get PInt32 σ' h' 1 = Ok (HVal (VNum 300))).
Proof.
  eexists. split; [vm_compute; reflexivity|]. split.
  { eexists. split; [vm_compute; reflexivity|]. vm_compute. split_and!; discriminate || reflexivity. }
  split; [vm_compute; reflexivity|]. split; [vm_compute; reflexivity|].
  assert (Hb : h_buf held2_put.2 = Some (mkSl 0 0 6 10)) by (vm_compute; reflexivity).
  split; [intros a j; rewrite Hb; cbn; lia|].
  eexists _, _. split; [vm_compute; reflexivity|]. split; vm_compute; reflexivity.
Qed.

(** ** C52: appending to a result *)

(** A client appends [bs] to a slice [d] it got from an accessor.  The part of
    the message up to the end of [d] is unchanged, as are the getters of the
    fields whose last record lies there. *)
Theorem C52_client_append_partial grow mt sc os σ h s d bs σ' d' b1 b2 f T :
  schema_ok mt sc -> history mt sc os (abs σ h) -> ops_size os < 2 ^ 63 -> hwf σ h ->
  h_buf h = Some s -> swf σ (Some d) ->
  sbytes σ (Some s) = b1 ++ b2 -> sarr d = sarr s -> soff s + zlen b1 <= soff d + slen d ->
  h_append grow σ (Some d) bs = (σ', d') ->
  (exists b2', sbytes σ' (Some s) = b1 ++ b2' /\ length b2' = length b2) /\
  (sc f = Some (KSingle T) -> (exists rs1, wire rs1 b1) -> (exists rs2, wire rs2 b2 /\ occ f rs2 = []) ->
   exists v v', h_get T σ h f = Ok v /\ h_get T σ' h f = Ok v' /\ hval_of σ' v' = hval_of σ v).
Proof.
  intros Hsc Hh Hsz Hwf Hb Hd Hsb Ha Hpos E.
  destruct (gframe_append (fun _ => False) _ _ _ _ _ _ Hd E) as (F & _).
  eapply prefix_frame; try exact F; try done.
  - intros l _ [].
  - intros j Hj. cbn. lia.
Qed.

(** With [b2] empty: a slice at the end of the message, say of the field set
    last, may be appended to. *)
Example C52_case :
  exists d, h_get PString held_put.1 held_put.2 2 = Ok (HStr (Some d)) /\ swf held_put.1 (Some d) /\
    (exists s, h_buf held_put.2 = Some s /\ sarr d = sarr s /\ soff s + zlen (sbytes held_put.1 (Some s)) <= soff d + slen d) /\
    (exists rs, wire rs [] /\ occ 1 rs = []).
Proof.
  eexists. split; [vm_compute; reflexivity|]. split.
  { eexists. split; [vm_compute; reflexivity|]. vm_compute. split_and!; discriminate || reflexivity. }
  split; [|exists []; split; [constructor|done]].
  eexists. split; [vm_compute; reflexivity|]. split; [vm_compute; reflexivity|]. vm_compute. discriminate.
Qed.

(** In general the append overwrites the following fields: the results have the
    capacity of the rest of the buffer.  The message is field 3 = [8; 7], field
    1 = 5; after append(m.Field3(), 8, 9) field 1 reads 9. *)
Theorem C52_append_to_result_refuted :
  exists σ h d σ' d',
    hwf σ h /\ history demo_mt demo_sc par2_os (abs σ h) /\
    h_get PInt32 σ h 1 = Ok (HVal (VNum 5)) /\
    h_get PBytes σ h 3 = Ok (HBy (Some d)) /\ sbytes σ (Some d) = [8; 7] /\
    h_append tight σ (Some d) [8; 9] = (σ', d') /\
    h_get PInt32 σ' h 1 = Ok (HVal (VNum 9)).
Proof.
  exists (par_put par2_os).1, (par_put par2_os).2. eexists _, _, _.
  destruct (par_hist par2_os ltac:(auto)) as [H1 H2].
  split; [exact H1|]. split; [exact H2|]. split; [vm_compute; reflexivity|]. split; [vm_compute; reflexivity|].
  split; [vm_compute; reflexivity|]. split; [vm_compute; reflexivity|]. vm_compute. reflexivity.
Qed.

(** ** C53: copies of a struct *)

(** [c := *m] copies the array and shares the buffer and the map.  Appending
    through the copy, or setting a field that is not set, leaves the original
    message as it was, if it has no overflow map. *)
Theorem C53_copy_append_partial grow σ h f v σ' c' :
  hwf σ h -> h_m h = None -> h_append_bytes grow σ h f v = Ok (σ', c') -> abs σ' h = abs σ h.
Proof.
  intros Hwf Hm E. destruct (C51_append_partial _ _ _ _ _ _ _ Hwf E) as [_ H]. apply H; [done| |rewrite Hm; done].
  intros a j H1 H2. destruct (h_buf h) as [s|]; [|done]. destruct H1 as [-> H1]. destruct H2 as [_ H2]. cbn in *. lia.
Qed.
Theorem C53_copy_first_set_partial grow mt sc os σ h f T v σ' c' :
  schema_ok mt sc -> history mt sc os (abs σ h) -> ops_size os < 2 ^ 63 -> hwf σ h -> h_m h = None ->
  sc f = Some (KSingle T) -> spec_run sc os f = [] ->
  (h_set grow T σ h f v = Ok (σ', c') \/ exists s, h_set_view grow σ h f s = Ok (σ', c')) ->
  abs σ' h = abs σ h.
Proof.
  intros Hsc Hh Hsz Hwf Hm Hf Hu E. destruct (C51_first_set_partial _ _ _ _ _ _ _ _ _ _ _ Hsc Hh Hsz Hwf Hf Hu E) as [_ H].
  apply H; [done| |rewrite Hm; done].
  intros a j H1 H2. destruct (h_buf h) as [s|]; [|done]. destruct H1 as [-> H1]. destruct H2 as [_ H2]. cbn in *. lia.
Qed.

(** Setting a set field through the copy, with a value of any size: the getters of
    the original answer as before for all other fields that are last set before
    the field's record. *)
Theorem C53_copy_overwrite_partial grow mt sc os σ h f T σ' c' rs1 b1 w tb pb rs2 b2 g T' :
  schema_ok mt sc -> history mt sc os (abs σ h) -> ops_size os < 2 ^ 63 -> hwf σ h -> h_m h = None ->
  sc f = Some (KSingle T) ->
  sbytes σ (h_buf h) = b1 ++ tb ++ pb ++ b2 -> wire rs1 b1 -> tag_enc (f, w) tb -> payload_enc w pb ->
  wire rs2 b2 -> occ f rs2 = [] ->
  ((exists v, h_set grow T σ h f v = Ok (σ', c')) \/
   ((T = PString \/ T = PBytes) /\ exists s, h_set_view grow σ h f s = Ok (σ', c'))) ->
  sc g = Some (KSingle T') -> g <> f -> occ g rs2 = [] ->
  exists v v', h_get T' σ h g = Ok v /\ h_get T' σ' h g = Ok v' /\ hval_of σ' v' = hval_of σ v.
Proof.
  intros Hsc Hh Hsz Hwf Hm Hf Hb W1 Ht Hp W2 Hocc E Hg Hne Hoccg.
  pose proof (h_set_from _ _ _ _ _ _ _ _ _ _ _ _ _ _ _ _ _ Hsc Hh Hsz Hwf Hf Hb W1 Ht Hp W2 Hocc E) as F.
  destruct (h_buf h) as [s|] eqn:Eb.
  2:{ cbn [sbytes] in Hb. destruct b1; [|done]. destruct tb; [|done]. destruct Ht as [_ (i & l & H & _)]. destruct i; done. }
  eapply (prefix_frame mt sc os σ h s σ' _ _ b1 (tb ++ pb ++ b2) g T'); try done.
  - intros l. rewrite Hm. done.
  - intros j Hj. cbn. lia.
  - eauto.
  - exists ((f, w) :: rs2). split.
    + rewrite app_assoc. constructor; [|done]. exists tb, pb. auto.
    + cbn [occ]. destruct (Z.eqb_spec f g); [congruence|done].
Qed.

Example C53_case :
  hwf held_put.1 held_put.2 /\ h_m held_put.2 = None /\ spec_run demo_sc held_os 6 = [] /\
  match h_set tight PSint32 held_put.1 held_put.2 6 (VNum 1) with
  | Ok (σ', c') => sarr (default (mkSl 0 0 0 0) (h_buf c')) = sarr (default (mkSl 0 0 0 0) (h_buf held_put.2))
  | _ => False
  end.
Proof. split; [apply held_hist|]. vm_compute. auto. Qed.

(** A copy is not a snapshot: first, setting a field through the copy changes the
    original (same size), or corrupts it (other size: the getter of the original's
    string field panics). *)
Theorem C53_copy_refuted :
  exists σ h σ1 c1 σ2 c2,
    hwf σ h /\ history demo_mt demo_sc held_os (abs σ h) /\
    h_get PInt32 σ h 1 = Ok (HVal (VNum 5)) /\
    h_set tight PInt32 σ h 1 (VNum 6) = Ok (σ1, c1) /\ h_get PInt32 σ1 h 1 = Ok (HVal (VNum 6)) /\
    h_set tight PInt32 σ h 1 (VNum 300) = Ok (σ2, c2) /\
    h_get PString σ2 h 2 = Panic.
Proof.
  exists held_put.1, held_put.2. eexists _, _, _, _. split; [apply held_hist|]. split; [apply held_hist|].
  split; [vm_compute; reflexivity|]. split; [vm_compute; reflexivity|]. split; [vm_compute; reflexivity|].
  split; [vm_compute; reflexivity|]. vm_compute. reflexivity.
Qed.
(** Second, when both the original and the copy grow, they write over each other:
    the copy sets field 6, then the original does; the copy reads the original's
    value. *)
Theorem C53_both_grow_refuted :
  exists σ h σ1 c1 σ2 h2,
    hwf σ h /\ history demo_mt demo_sc held_os (abs σ h) /\
    h_set tight PSint32 σ h 6 (VNum 1) = Ok (σ1, c1) /\ h_get PSint32 σ1 c1 6 = Ok (HVal (VNum 1)) /\
    h_set tight PSint32 σ1 h 6 (VNum 2) = Ok (σ2, h2) /\ h_get PSint32 σ2 c1 6 = Ok (HVal (VNum 2)).
Proof.
  exists held_put.1, held_put.2. eexists _, _, _, _. split; [apply held_hist|]. split; [apply held_hist|].
  split; [vm_compute; reflexivity|]. split; [vm_compute; reflexivity|]. split; [vm_compute; reflexivity|]. vm_compute. reflexivity.
Qed.

Print Assumptions C47_reads.
Print Assumptions C47_decode.
Print Assumptions C47_reset.
Print Assumptions C47_mutations.
Print Assumptions C51_append_partial.
Print Assumptions C51_first_set_partial.
Print Assumptions C51_same_size_partial.
Print Assumptions C51_any_set_before_partial.
Print Assumptions C53_copy_overwrite_partial.
Print Assumptions C51_resize_refuted.
Print Assumptions C52_client_append_partial.
Print Assumptions C52_append_to_result_refuted.
Print Assumptions C53_copy_append_partial.
Print Assumptions C53_copy_first_set_partial.
Print Assumptions C53_copy_refuted.
Print Assumptions C53_both_grow_refuted.

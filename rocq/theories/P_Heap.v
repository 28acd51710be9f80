(** * Properties C29-C34, C44: memory *)
From Verif Require Import Heap HeapApi Core HeapFacts HeapSet HeapExec HeapRead HeapView HeapAlias HeapThms Demo.

(** A memory with the demo message in it, with 7 bytes of spare capacity, and a
    second array the caller owns. *)
Definition demo_put := h_put (fun _ => 7%nat) (mkMem {[ 5%nat := [1; 2; 3; 4] ]} ∅) demo_m.
Definition demo_σ : mem := demo_put.1.
Definition demo_h : hmsg := demo_put.2.
Definition caller : option slice := Some (mkSl 5 1 2 3).
Definition tight : policy := fun _ _ n => n.
Definition roomy : policy := fun _ _ n => 2 * n + 16.

Lemma demo_abs : hwf demo_σ demo_h /\ abs demo_σ demo_h = demo_m.
Proof. destruct (h_put_ok (fun _ => 7%nat) (mkMem {[ 5%nat := [1; 2; 3; 4] ]} ∅) demo_m demo_σ demo_h eq_refl) as (_ & A & B & _). done. Qed.

Lemma demo_hist : history demo_mt demo_sc demo_os (abs demo_σ demo_h).
Proof. rewrite (proj2 demo_abs). exact demo_history. Qed.

(** ** C29: reads never write *)

(** Any schedule of reading calls (getters, Encode, Decode, sub-message
    accessors, iterators) of any number of readers, over buffers shared in any
    way, leaves every byte array as it was. *)
Theorem C29_reads_never_write σ ts sch ans σ' :
  rrun σ ts sch = (ans, Ok σ') -> arrs σ' = arrs σ.
Proof. apply rrun_arrs. Qed.

(** Readers do not disturb each other: if each reader's calls, run alone, finish,
    then every interleaving finishes and every reader gets the answers it gets
    alone.  The only requirement is that no two structs share an offsets map
    (structs are not copied); buffers may overlap arbitrarily. *)
Theorem C29_concurrent_readers σ ts sch :
  own_maps σ ts -> Forall (fun p => (p.1 < length ts)%nat) sch ->
  (forall i t, ts !! i = Some t -> exists l σ', rtrace σ t (of_thread i sch) = (l, Ok σ')) ->
  exists ans σ', rrun σ ts sch = (ans, Ok σ') /\
    forall i t, ts !! i = Some t -> of_thread i ans = (rtrace σ t (of_thread i sch)).1.
Proof.
  intros Hown Hidx Hsolo.
  destruct (rrun_sim sch σ ts (map (pair σ) ts) Hown) as (ans & σ' & Hr & Hans).
  - apply map_length.
  - done.
  - intros i t s Ht Hs. rewrite list_lookup_fmap, Ht in Hs. injection Hs as <-. cbn [fst snd]. split_and!.
    + eapply own_single; eauto.
    + split_and!; [done| |done]. apply Forall_Forall2_diag. apply Forall_forall. intros h _. done.
    + apply Hsolo. done.
  - exists ans, σ'. split; [done|]. intros i t Ht. rewrite (Hans i (σ, t)); [done|]. rewrite list_lookup_fmap, Ht. done.
Qed.

(** Two readers on the same buffer: one reads a string and iterates, the other
    decodes the same bytes again and reads a sub-message. *)
Definition demo_readers : list reader :=
  [mkReader [demo_h; mkH None [0; 0; 0] None] [None];
   mkReader [mkH None (replicate 8 0) None; mkH None [0; 0; 0] None] [None]].
Definition demo_reads : list (nat * rcall) :=
  [(1%nat, RDecode 0 demo_mt (h_buf demo_h)); (0%nat, RGet 0 PString 2); (0%nat, RIter 0 5 0); (1%nat, RMessage 0 3 1 (mkMtype 3 []));
   (0%nat, RNext 0 5 1 (mkMtype 3 [])); (1%nat, RGet 0 PInt32 1); (0%nat, RGet 1 PInt32 1); (0%nat, RNext 0 5 1 (mkMtype 3 []))].
Example C29_case :
  own_maps demo_σ demo_readers /\
  match rrun demo_σ demo_readers demo_reads with
  | (ans, Ok σ') =>
    of_thread 0 ans = [RVal (HStr (Some (mkSl 6 14 2 26))); RUnit; ROk true None; RVal (HVal (VNum 1)); ROk true None] /\
    of_thread 1 ans = [RErr None; ROk true None; RVal (HVal (VNum (-1)))]
  | _ => False
  end.
Proof.
  split.
  - split.
    + intros i t x h l Ht Hx Hl. exfalso. destruct i as [|[|i]]; cbn in Ht; try done; injection Ht as <-;
        destruct x as [|[|x]]; vm_compute in Hx; try done; injection Hx as <-; done.
    + intros i j t1 t2 x y h1 h2 l Ht _ Hx _ Hl _. exfalso. destruct i as [|[|i]]; cbn in Ht; try done; injection Ht as <-;
        destruct x as [|[|x]]; vm_compute in Hx; try done; injection Hx as <-; done.
  - vm_compute. split; reflexivity.
Qed.

(** ** C30: zero copy *)

(** On any message produced by a history of calls: GetBytes and GetString return
    the payload of the last record of the field in place (nil if there is none),
    the iterator's calls return the payloads of all records in order, in place. *)
Theorem C30_views mt sc os σ h ps :
  schema_ok mt sc -> history mt sc os (abs σ h) -> ops_size os < 2 ^ 63 -> hwf σ h ->
  wire_parts ps (sbytes σ (h_buf h)) ->
  (forall f, sc f = Some (KSingle PString) ->
     exists d, h_get PString σ h f = Ok (HStr d) /\ is_view σ h (last (payloads f 0 ps)) d) /\
  (forall f, sc f = Some (KSingle PBytes) ->
     exists d, h_get PBytes σ h f = Ok (HBy d) /\ is_view σ h (last (payloads f 0 ps)) d /\
       forall mt' x ok err σ' x', h_message mt' σ h f x = Ok (ok, err, σ', x') ->
         if ok then h_buf x' = d else d = None) /\
  (forall f, sc f = Some KRepeated ->
     forall k, exists it l, h_iter σ h f = Ok it /\ h_finds k σ it f = Ok l /\
       Forall2 (is_view σ h)
         (map Some (take k (payloads f 0 ps)) ++ replicate (k - length (payloads f 0 ps)) None) l).
Proof.
  intros Hsc Hh Hsz Hwf Hps. split_and!.
  - intros f Hf. destruct (history_views mt sc os σ h ps f Hsc Hh Hsz Hwf Hps) as [H _].
    destruct (H PString Hf ltac:(auto)) as (d & Hd & Hv). cbn [h_get]. rewrite Hd. eexists. split; [reflexivity|done].
  - intros f Hf. destruct (history_views mt sc os σ h ps f Hsc Hh Hsz Hwf Hps) as [H _].
    destruct (H PBytes Hf ltac:(auto)) as (d & Hd & Hv). cbn [h_get]. rewrite Hd. eexists. split; [reflexivity|]. split; [done|].
    intros mt' x ok err σ' x' Hm. destruct (h_message_buf _ _ _ _ _ _ _ _ _ Hm) as (_ & d' & Hd' & Hok).
    rewrite Hd in Hd'. injection Hd' as <-. destruct ok; apply Hok.
  - intros f Hf. apply (history_views mt sc os σ h ps f Hsc Hh Hsz Hwf Hps). done.
Qed.

(** The same after Decode of any well-formed buffer, whatever encoding of tags
    and lengths it uses; the struct then refers to the buffer given to Decode. *)
Theorem C30_decoded_views mt σ h s ps :
  hwf σ h -> swf σ s -> of_type mt (abs σ h) -> wire_parts ps (sbytes σ s) ->
  Forall (fun p => p.1.1 < Z.of_nat (alen mt)) ps -> hlen s < 2 ^ 63 ->
  exists σ' h', h_decode mt σ h s = Ok (None, σ', h') /\ arrs σ' = arrs σ /\ h_buf h' = s /\
    forall f, 0 <= f < Z.of_nat (alen mt) -> Forall (fun w => wire_type w = 2) (occ f (map fst ps)) ->
      (~ In f (reps mt) -> exists d, h_get PBytes σ' h' f = Ok (HBy d) /\ h_get PString σ' h' f = Ok (HStr d) /\
         is_view σ' h' (last (payloads f 0 ps)) d) /\
      (In f (reps mt) -> forall k, exists it l, h_iter σ' h' f = Ok it /\ h_finds k σ' it f = Ok l /\
         Forall2 (is_view σ' h') (map Some (take k (payloads f 0 ps)) ++ replicate (k - length (payloads f 0 ps)) None) l).
Proof.
  intros H1 H2 H3 H4 H5 H6. destruct (decoded_views mt σ h s ps H1 H2 H3 H4 H5 H6) as (σ' & h' & E & A & B & C).
  exists σ', h'. split_and!; try done. intros f Hf Hw. destruct (C f Hf Hw) as [C1 C2]. split; [|done].
  intros Hn. destruct (C1 Hn) as (d & Hd & Hv). exists (default None d). cbn [h_get]. rewrite Hd. done.
Qed.

(** Next puts the struct on the slice FindNextField returned. *)
Theorem C30_next_is_find mt' σ it f x it' ok err σ' x' :
  h_next mt' σ it f x = Ok (it', ok, err, σ', x') ->
  exists d, h_find σ it f = Ok (it', d) /\ (if ok then h_buf x' = d /\ is_Some d else d = None /\ x' = x).
Proof. intros H. apply (h_next_buf _ _ _ _ _ _ _ _ _ _ H). Qed.

(** In the demo: the string field lies in the message's own array. *)
Example C30_case :
  h_get PString demo_σ demo_h 2 = Ok (HStr (Some (mkSl (sarr (default (mkSl 0 0 0 0) (h_buf demo_h))) 14 2 26))) /\
  sbytes demo_σ (Some (mkSl 6 14 2 26)) = [104; 105] /\
  wire_parts (zip demo_rs [[8; 5]; [34; 2; 97; 98]; [42; 2; 8; 1]; [8; 7]; [26; 0]]) demo_bs /\
  payloads 5 0 (zip demo_rs [[8; 5]; [34; 2; 97; 98]; [42; 2; 8; 1]; [8; 7]; [26; 0]]) = [(8, [8; 1])].
Proof.
  split; [vm_compute; reflexivity|]. split; [vm_compute; reflexivity|]. split; [|reflexivity].
  split; [|reflexivity].
  assert (H : Forall2 record_enc demo_rs [[8; 5]; [34; 2; 97; 98]; [42; 2; 8; 1]; [8; 7]; [26; 0]]).
  { assert (Hv : forall f v t, 0 <= f -> t = 8 * f + 0 -> 0 <= t < 128 -> 0 <= v < 128 -> record_enc (f, WVarint v) [t; v]).
    { intros f v t Hf -> Ht Hv. exists [8 * f + 0], [v]. split_and!; [reflexivity| |apply small_varint; lia].
      split; [cbn; lia|]. apply small_varint. cbn. lia. }
    assert (Hb : forall f bs t n, 0 <= f -> t = 8 * f + 2 -> 0 <= t < 128 -> n = Z.of_nat (length bs) -> n < 128 -> Forall is_byte bs ->
       record_enc (f, WBytes bs) (t :: n :: bs)).
    { intros f bs t n Hf -> Ht -> Hn Hbs. exists [8 * f + 2], (Z.of_nat (length bs) :: bs). split_and!; [reflexivity| |].
      - split; [cbn; lia|]. apply small_varint. cbn. lia.
      - exists [Z.of_nat (length bs)]. split_and!; [reflexivity|apply small_varint; lia|exact Hbs]. }
    unfold demo_rs. repeat (constructor; [first [apply Hv; lia|apply Hb; try reflexivity; try lia; repeat constructor; unfold is_byte; lia]|]).
    constructor. }
  revert H. generalize demo_rs. intros rs H. induction H; constructor; done.
Qed.

(** What does not hold: after a *successful* Decode of a record whose wire type is
    not the declared one, the bytes accessor returns a slice that reaches beyond
    the message, into the spare capacity of the caller's buffer.  Here the
    message is the two bytes 8, 5 (field 1 as a varint) in an array of 8. *)
Theorem C30_wire_type_mismatch_refuted :
  exists σ s σ' h' d,
    swf σ (Some s) /\ sbytes σ (Some s) = [8; 5] /\
    h_decode demo_mt σ (mkH None (replicate 8 0) None) (Some s) = Ok (None, σ', h') /\
    h_get PBytes σ' h' 1 = Ok (HBy (Some d)) /\
    soff s + slen s < soff d + slen d /\ sbytes σ' (Some d) = [11; 12; 13; 14; 15].
Proof.
  exists (mkMem {[ 0%nat := [8; 5; 11; 12; 13; 14; 15; 16] ]} ∅), (mkSl 0 0 2 8).
  eexists _, _, _. split.
  { exists [8; 5; 11; 12; 13; 14; 15; 16]. split; [reflexivity|]. unfold zlen. cbn [soff slen scap length]. lia. }
  split; [reflexivity|]. split; [vm_compute; reflexivity|]. split; [vm_compute; reflexivity|].
  split; [cbn; lia|]. vm_compute. reflexivity.
Qed.

(** ** C31: setters write only to the message's own buffer *)

(** For every sequence of setter and append calls with arbitrary arguments
    (including arguments that alias anything), every growth policy and every
    memory: bytes outside the capacity window of the buffer at the start, and maps
    of other structs, are not changed; the buffer afterwards lies in the old
    window or in new memory. *)
Theorem C31_own_buffer_only grow σ h ms σ' h' :
  hwf σ h -> h_muts grow σ h ms = Ok (σ', h') ->
  (forall a j, is_Some (arrs σ !! a) -> ~ in_window (h_buf h) a j -> cell σ' a j = cell σ a j) /\
  (forall k m, maps σ !! k = Some m -> h_m h <> Some k -> maps σ' !! k = Some m) /\
  (forall a j, in_window (h_buf h') a j -> in_window (h_buf h) a j \/ arrs σ !! a = None) /\
  (forall s, swf σ s -> apart s (h_buf h) -> sbytes σ' s = sbytes σ s).
Proof.
  intros Hwf E. destruct (h_muts_frame _ _ _ _ _ _ Hwf E) as [_ (F1 & F2 & _)]. split_and!.
  - apply F1.
  - apply F1.
  - apply F2.
  - intros s Hs Hap. eapply sbytes_frame; [apply F1|done|]. intros a j Hj Hj'. eapply Hap; [|exact Hj'].
    eapply in_bytes_window; done.
Qed.

(** Three mutations of the demo: in the spare capacity, in place, and with
    reallocation; the caller's array is as before, the old buffer is not. *)
Example C31_case :
  hwf demo_σ demo_h /\ apart caller (h_buf demo_h) /\
  match h_muts roomy demo_σ demo_h [MSetView 3 caller; MSet PInt32 1 (VNum 7); MAppend 5 (View caller); MAppend 5 (Scratch [8; 9])] with
  | Ok (σ', h') => arr_of σ' 5 = [1; 2; 3; 4] /\ arr_of σ' 6 <> arr_of demo_σ 6
  | _ => False
  end.
Proof.
  split; [apply demo_abs|]. split; [intros a j [-> _] [H _]; discriminate|].
  vm_compute. split; [reflexivity|discriminate].
Qed.

(** ** C32: setters copy their argument *)

(** Argument in memory of its own (the caller's slice, another message): the
    value stored is the one the argument had at the call, and it stays whatever
    the caller writes into its slice afterwards, capacity included. *)
Theorem C32_argument_copied_partial grow mt sc os σ h f T s :
  schema_ok mt sc -> history mt sc os (abs σ h) -> hwf σ h ->
  sc f = Some (KSingle T) -> T = PString \/ T = PBytes ->
  swf σ s -> Forall is_byte (sbytes σ s) -> apart s (h_buf h) -> ops_size os + 20 + hlen s < 2 ^ 63 ->
  exists σ' h', h_set_view grow σ h f s = Ok (σ', h') /\ sbytes σ' s = sbytes σ s /\
    forall σ'', only_changes σ' σ'' (in_window s) (fun _ => False) ->
      exists v, h_get T σ'' h' f = Ok v /\ hval_of σ'' v = bytes_val T (sbytes σ s).
Proof.
  intros H1 H2 H3 H4 H5 H6 H7 H8 H9.
  destruct (set_view_copied grow mt sc os σ h f T s H1 H2 H3 H4 H5 H6 H7 H8 H9) as (σ' & h' & A & B & _ & C).
  exists σ', h'. auto.
Qed.

(** Argument that is a part of the message itself, as returned by an accessor of
    the same message.  It is stored correctly when the field is unset, when the
    argument lies before the field's own (last) record, or when the old value of
    the field has the same length and a minimal length prefix.  In the remaining
    case (the argument lies in or after a record of another size) it is not: see
    the refutations below. *)
Theorem C32_self_view_partial grow mt sc os σ h f T s d :
  schema_ok mt sc -> history mt sc os (abs σ h) -> hwf σ h ->
  sc f = Some (KSingle T) -> T = PString \/ T = PBytes ->
  h_buf h = Some s -> sarr d = sarr s -> soff s <= soff d -> soff d + slen d <= soff s + slen s -> swf σ (Some d) ->
  ops_size os + 20 + slen d < 2 ^ 63 ->
  (spec_run sc os f = [] \/
   exists b1 tb lb x0 b2, last_bytes_record f (sbytes σ (Some s)) b1 tb lb x0 b2 /\
     (soff d + slen d <= soff s + zlen b1 \/
      (zlen x0 = slen d /\ is_minimal_varint (slen d) lb /\ soff s + zlen (b1 ++ tb ++ lb) <= soff d))) ->
  exists σ' h' v, h_set_view grow σ h f (Some d) = Ok (σ', h') /\
    h_get T σ' h' f = Ok v /\ hval_of σ' v = bytes_val T (sbytes σ (Some d)) /\
    m_set T (abs σ h) f (bytes_val T (sbytes σ (Some d))) = Ok (abs σ' h').
Proof.
  intros H1 H2 H3 H4 H5 H6 H7 H8 H9 H10 H11 Hc.
  destruct (self_view grow mt sc os σ h f T s d H1 H2 H3 H4 H5 H6 H7 H8 H9 H10 H11) as (σ' & h' & E & Hset & Hw & _).
  { destruct Hc as [Hc|(b1 & tb & lb & x0 & b2 & Hr & Hc)]; [auto|]. right. exists b1, tb, lb, x0, b2. split; [done|].
    destruct Hc as [Hc|(A & B & C)]; [left; lia|right]. split_and!; try done. lia. }
  assert (Hby : Forall is_byte (sbytes σ (Some d)) /\ zlen (sbytes σ (Some d)) = slen d).
  { split; [|apply (sbytes_length σ _ H10)].
    assert (Hb : Forall is_byte (mbuf (abs σ h))).
    { eapply history_bytes; [exact H1|exact H2|]. destruct H10 as (l & _ & _ & HH & _). lia. }
    cbn [abs mbuf] in Hb. pose proof (proj1 H3) as Hs. rewrite H6 in Hb, Hs. eapply window_bytes; eauto. }
  destruct Hby as [Hby Hbl].
  destruct (read_your_write mt sc os (abs σ h) f T (bytes_val T (sbytes σ (Some d)))) as (m' & Hset' & Hget); try done.
  { destruct H5 as [-> | ->]; done. }
  { destruct H5 as [-> | ->]; cbn [bytes_val pval_size]; unfold zlen in Hbl; lia. }
  rewrite Hset in Hset'. injection Hset' as <-.
  pose proof (h_get_refines T σ' h' f Hw) as Hg. rewrite Hget in Hg. destruct Hg as (v & V & HV).
  exists σ', h', v. split_and!; try done. rewrite HV. destruct H5 as [-> | ->]; done.
Qed.

(** AppendTo with any argument that does not reach into the spare capacity of the
    message's buffer; in particular the message itself or a part of it. *)
Theorem C32_append_copied_partial grow mt sc os σ h f s :
  schema_ok mt sc -> history mt sc os (abs σ h) -> hwf σ h -> sc f = Some KRepeated ->
  swf σ s -> Forall is_byte (sbytes σ s) -> (forall a j, in_bytes s a j -> ~ in_spare (h_buf h) a j) ->
  ops_size os + 20 + hlen s < 2 ^ 63 ->
  exists σ' h', h_append_bytes grow σ h f (View s) = Ok (σ', h') /\
    m_append (abs σ h) f (sbytes σ s) = Ok (abs σ' h').
Proof.
  intros H1 H2 H3 H4 H5 H6 H7 H8.
  destruct (append_to_any mt sc os (abs σ h) f (sbytes σ s)) as (m' & Hm); try done.
  { rewrite (sbytes_length σ s H5). lia. }
  pose proof (h_append_bytes_refines grow σ h f (View s) H3 ltac:(split; done)) as Hr. cbn [src_bytes] in Hr.
  rewrite Hm in Hr. destruct Hr as (σ' & h' & E & Ha & _). exists σ', h'. split; [done|]. rewrite Hm, Ha. done.
Qed.

(** The cases that go wrong.  First: SetF(m.G()) where the record of [f] lies
    before that of [g] and has another size.  The message is
    field 3 = "a", field 2 = "hello", field 1 = 5; after SetField3(m.Field2()) the
    field reads "lo\x08\x05\x1a" instead of "hello". *)
Theorem C32_self_view_refuted :
  exists σ h d σ' h' v,
    hwf σ h /\ history demo_mt demo_sc [OSet 3 (VBytes (Some [97])); OSet 2 (VString [104; 101; 108; 108; 111]); OSet 1 (VNum 5)] (abs σ h) /\
    h_get PString σ h 2 = Ok (HStr (Some d)) /\ sbytes σ (Some d) = [104; 101; 108; 108; 111] /\
    h_set_view roomy σ h 3 (Some d) = Ok (σ', h') /\
    h_get PBytes σ' h' 3 = Ok v /\ hval_of σ' v = VBytes (Some [108; 111; 8; 5; 26]).
Proof.
  set (m := match run demo_mt demo_sc (msg_zero demo_mt) [OSet 3 (VBytes (Some [97])); OSet 2 (VString [104; 101; 108; 108; 111]); OSet 1 (VNum 5)]
            with Ok m => m | _ => msg_zero demo_mt end).
  vm_compute in m.
  destruct (h_put (fun _ => 4%nat) (mkMem ∅ ∅) m) as [σ h] eqn:E.
  destruct (h_put_ok _ _ _ _ _ E) as (_ & Hw & Ha & _).
  exists σ, h. vm_compute in E. injection E as <- <-.
  eexists _, _, _, _. split; [exact Hw|]. split.
  { rewrite Ha. split; [|vm_compute; reflexivity].
    repeat (apply Forall_cons; split; [eexists; split; [reflexivity|]; cbn; try lia; repeat constructor; unfold is_byte; lia|]). constructor. }
  split; [vm_compute; reflexivity|]. split; [vm_compute; reflexivity|]. split; [vm_compute; reflexivity|].
  split; [vm_compute; reflexivity|]. vm_compute. reflexivity.
Qed.

(** Second: SetF(m.F()), the value of the field itself, when the message was
    decoded from a buffer with an over-long (legal) length prefix. The message is
    field 3 = "a" with the length written in two bytes, field 1 = 5. *)
Definition overlong_os : list op := [ODecode [(3, WBytes [97]); (1, WVarint 5)] [26; 129; 0; 97; 8; 5]].
Lemma overlong_ok : Forall (op_ok (Z.of_nat (alen demo_mt)) demo_sc) overlong_os.
Proof.
  apply Forall_cons; split; [|constructor]. split.
  - apply (wire_min_cons _ _ [26; 129; 0; 97] [8; 5]); [|apply (wire_min_cons _ _ [8; 5] []); [|constructor]].
    + exists [26], [129; 0; 97]. split_and!; [reflexivity| |].
      * split; [cbn; lia|]. apply small_varint. cbn. lia.
      * exists [129; 0]. split_and!; [reflexivity| |repeat constructor; unfold is_byte; lia].
        exists [129], 0. split_and!; try (cbn; lia); try reflexivity. repeat constructor; lia.
    + exists [8], [5]. split_and!; [reflexivity| |apply small_varint; lia].
      split; [cbn; lia|]. apply small_varint. cbn. lia.
  - repeat (apply Forall_cons; split; [split; [cbn; lia|vm_compute; split; [reflexivity|exact I]]|]). constructor.
Qed.

Theorem C32_own_value_refuted :
  exists σ h d σ' h' v,
    hwf σ h /\ history demo_mt demo_sc overlong_os (abs σ h) /\
    h_get PBytes σ h 3 = Ok (HBy (Some d)) /\ sbytes σ (Some d) = [97] /\
    h_set_view roomy σ h 3 (Some d) = Ok (σ', h') /\
    h_get PBytes σ' h' 3 = Ok v /\ hval_of σ' v = VBytes (Some [1]).
Proof.
  set (m := match run demo_mt demo_sc (msg_zero demo_mt) overlong_os with Ok m => m | _ => msg_zero demo_mt end).
  vm_compute in m.
  destruct (h_put (fun _ => 4%nat) (mkMem ∅ ∅) m) as [σ h] eqn:E.
  destruct (h_put_ok _ _ _ _ _ E) as (_ & Hw & Ha & _).
  exists σ, h. vm_compute in E. injection E as <- <-.
  eexists _, _, _, _. split; [exact Hw|]. split.
  { rewrite Ha. split; [exact overlong_ok|vm_compute; reflexivity]. }
  split; [vm_compute; reflexivity|]. split; [vm_compute; reflexivity|]. split; [vm_compute; reflexivity|].
  split; [vm_compute; reflexivity|]. vm_compute. reflexivity.
Qed.

(** Third: the argument lies in the spare capacity of the buffer, as after
    m.Reset(buf[:0]); m.SetData(buf).  The caller's buffer holds "hello". *)
Theorem C32_spare_capacity_refuted :
  exists σ h s σ1 h1 σ' h' v,
    hwf σ h /\ of_type demo_mt (abs σ h) /\ swf σ (Some s) /\ sbytes σ (Some s) = [104; 101; 108; 108; 111] /\
    h_reset σ h (Some (mkSl (sarr s) (soff s) 0 (scap s))) = Ok (σ1, h1) /\
    h_set_view roomy σ1 h1 3 (Some s) = Ok (σ', h') /\
    h_get PBytes σ' h' 3 = Ok v /\ hval_of σ' v = VBytes (Some [26; 5; 108; 108; 111]).
Proof.
  exists (mkMem {[ 0%nat := [104; 101; 108; 108; 111] ]} ∅), (mkH None (replicate 8 0) None), (mkSl 0 0 5 5).
  eexists _, _, _, _, _. split.
  { split_and!; [exact I|exact I|]. intros _. vm_compute. repeat split; repeat constructor. }
  split; [vm_compute; reflexivity|]. split.
  { exists [104; 101; 108; 108; 111]. split; [reflexivity|]. unfold zlen. cbn [soff slen scap length]. lia. }
  split; [vm_compute; reflexivity|]. split; [vm_compute; reflexivity|]. split; [vm_compute; reflexivity|].
  split; [vm_compute; reflexivity|]. vm_compute. reflexivity.
Qed.

(** Cases: the caller's slice into the demo; SetField3(m.Field2()) where the
    records are in the other order (field 2 = "hello", field 3 = "a", field 1 = 5);
    the whole demo message appended to itself. *)
Definition hello_os : list op := [OSet 2 (VString [104; 101; 108; 108; 111]); OSet 3 (VBytes (Some [97])); OSet 1 (VNum 5)].
Definition hello_m : msg := Eval vm_compute in
  match run demo_mt demo_sc (msg_zero demo_mt) hello_os with Ok m => m | _ => msg_zero demo_mt end.
Definition hello_put := h_put (fun _ => 3%nat) (mkMem ∅ ∅) hello_m.

Example C32_case :
  (* the caller's slice *)
  (swf demo_σ caller /\ sbytes demo_σ caller = [2; 3] /\ apart caller (h_buf demo_h) /\
   match h_set_view roomy demo_σ demo_h 3 caller with
   | Ok (σ', h') => (let* v := h_get PBytes (write σ' 5 1 [77; 77]) h' 3 in Ok (hval_of (write σ' 5 1 [77; 77]) v)) = Ok (VBytes (Some [2; 3]))
   | _ => False
   end) /\
  (* a view of the message itself *)
  (history demo_mt demo_sc hello_os hello_m /\ abs hello_put.1 hello_put.2 = hello_m /\
   match h_get PString hello_put.1 hello_put.2 2 with
   | Ok (HStr (Some d)) =>
     sbytes hello_put.1 (Some d) = [104; 101; 108; 108; 111] /\
     last_bytes_record 3 hello_m.(mbuf) [18; 5; 104; 101; 108; 108; 111] [26] [1] [97] [8; 5] /\
     soff d + slen d <= 0 + zlen [18; 5; 104; 101; 108; 108; 111] /\
     match h_set_view tight hello_put.1 hello_put.2 3 (Some d) with
     | Ok (σ', h') => (let* v := h_get PBytes σ' h' 3 in Ok (hval_of σ' v)) = Ok (VBytes (Some [104; 101; 108; 108; 111]))
     | _ => False
     end
   | _ => False
   end) /\
  (* the message appended to itself *)
  (forall a j, in_bytes (h_buf demo_h) a j -> ~ in_spare (h_buf demo_h) a j) /\
  match h_append_bytes tight demo_σ demo_h 5 (View (h_buf demo_h)) with Ok _ => True | _ => False end.
Proof.
  split.
  - split_and!.
    + exists [1; 2; 3; 4]. split; [reflexivity|]. unfold zlen. cbn [soff slen scap length]. lia.
    + reflexivity.
    + intros a j [-> _] [H _]; discriminate.
    + vm_compute. reflexivity.
  - split.
    + split.
      { split; [|reflexivity].
        repeat (apply Forall_cons; split; [eexists; split; [reflexivity|]; cbn; try lia; repeat constructor; unfold is_byte; lia|]). constructor. }
      split; [vm_compute; reflexivity|].
      assert (E : h_get PString hello_put.1 hello_put.2 2 = Ok (HStr (Some (mkSl 0 2 5 13)))) by (vm_compute; reflexivity).
      rewrite E. cbn iota. split; [vm_compute; reflexivity|]. split.
      { assert (Hb : forall f bs t n, 0 <= f -> t = 8 * f + 2 -> 0 <= t < 128 -> n = Z.of_nat (length bs) -> n < 128 -> Forall is_byte bs ->
           record_enc (f, WBytes bs) (t :: n :: bs)).
        { intros f bs t n Hf -> Ht -> Hn Hbs. exists [8 * f + 2], (Z.of_nat (length bs) :: bs). split_and!; [reflexivity| |].
          - split; [cbn; lia|]. apply small_varint. cbn. lia.
          - exists [Z.of_nat (length bs)]. split_and!; [reflexivity|apply small_varint; lia|exact Hbs]. }
        unfold last_bytes_record. split_and!.
        - reflexivity.
        - exists [(2, WBytes [104; 101; 108; 108; 111])].
          apply (wire_cons _ _ [18; 5; 104; 101; 108; 108; 111] []); [|constructor].
          apply Hb; try reflexivity; try lia. repeat constructor; unfold is_byte; lia.
        - split; [cbn; lia|]. apply small_varint. cbn. lia.
        - apply small_varint. cbn. lia.
        - repeat constructor; unfold is_byte; lia.
        - exists [(1, WVarint 5)]. split; [|reflexivity].
          apply (wire_cons _ _ [8; 5] []); [|constructor]. exists [8], [5]. split_and!; [reflexivity| |apply small_varint; lia].
          split; [cbn; lia|]. apply small_varint. cbn. lia. }
      split; [unfold zlen; cbn; lia|]. vm_compute. reflexivity.
    + split; [|vm_compute; exact I].
      intros a j [-> Hj] [_ Hj']. lia.
Qed.

(** ** C33: messages in separate memory are independent *)

(** Any number of structs of any types that share neither buffers (with their
    capacities) nor maps; any interleaving of setters, getters, appends, Encode,
    Decode, Reset, sub-message accessors and iterations.  If no struct's calls,
    run alone, panic, then the interleaving finishes and every struct gives its
    client the answers it gives alone; alone means in the model of values
    ([trace]) and also in memory without the other structs' calls. *)
Theorem C33_independent grow spare mts σ hs sch :
  Forall (hwf σ) hs -> all_separate hs -> length mts = length hs ->
  Forall (fun p => (p.1 < length hs)%nat) sch ->
  (forall i mt h, mts !! i = Some mt -> hs !! i = Some h -> (trace mt (abs σ h) (of_thread i sch)).2 = Ok tt) ->
  exists ans σ' hs', hrun grow spare mts σ hs sch = (ans, Ok (σ', hs')) /\
    forall i mt h, mts !! i = Some mt -> hs !! i = Some h ->
      of_thread i ans = (trace mt (abs σ h) (of_thread i sch)).1 /\
      of_thread i ans = map snd (hrun grow spare [mt] σ [h] (map (pair 0%nat) (of_thread i sch))).1.
Proof.
  intros H1 H2 H3 H4 H5.
  destruct (hrun_refines grow spare mts sch σ hs H1 H2 H3 H4 H5) as (ans & σ' & hs' & E & _ & _ & _ & Ha).
  exists ans, σ', hs'. split; [done|]. intros i mt h Hmt Hh. split; [eauto|].
  assert (Hsolo : forall A (l : list A), of_thread 0 (map (pair 0%nat) l) = l).
  { intros A l. unfold of_thread. induction l as [|x l IH]; [done|]. cbn [map]. rewrite filter_cons_True by done. cbn [map snd]. rewrite IH. done. }
  destruct (hrun_refines grow spare [mt] (map (pair 0%nat) (of_thread i sch)) σ [h]) as (ans1 & σ1 & hs1 & E1 & _ & _ & _ & Ha1).
  - constructor; [|constructor]. rewrite Forall_lookup in H1. eauto.
  - intros [|a] [|b] h1 h2 Hne; cbn; try done.
  - done.
  - apply Forall_forall. intros p Hp. apply elem_of_list_fmap in Hp as (c & -> & _). cbn. lia.
  - intros [|a] mt1 h1; cbn [lookup list_lookup]; [|done]. intros [= <-] [= <-]. rewrite Hsolo. eauto.
  - rewrite E1. cbn [fst]. rewrite (Ha i mt h) by done. rewrite <- (Hsolo _ (of_thread i sch)) at 1.
    rewrite <- (Ha1 0%nat mt h) by done.
    assert (Hall : forall mts hs sch τ l r, hrun grow spare mts τ hs sch = (l, r) -> Forall (fun p => p.1 = 0%nat) sch -> Forall (fun p => p.1 = 0%nat) l).
    { clear. intros mts hs sch. revert hs. induction sch as [|[j c] sch IH]; intros hs τ l r Hr Hz; cbn [hrun] in Hr.
      - injection Hr as <- <-. constructor.
      - apply Forall_cons in Hz as [Hj Hz]. destruct (mts !! j); [|injection Hr as <- <-; constructor].
        destruct (hs !! j); [|injection Hr as <- <-; constructor].
        destruct (hexec _ _ _ _ _ _) as [[[a τ'] h']| | |]; try (injection Hr as <- <-; constructor).
        destruct (hrun grow spare mts τ' (<[j:=h']> hs) sch) as [l' r'] eqn:E'. injection Hr as <- <-.
        constructor; [done|]. eapply IH; eauto. }
    assert (Hz : Forall (fun p => p.1 = 0%nat) ans1).
    { eapply Hall; [exact E1|]. apply Forall_forall. intros p Hp. apply elem_of_list_fmap in Hp as (c & -> & _). done. }
    unfold of_thread. clear -Hz. induction Hz as [|[j a] l Hj _ IH]; [done|]. cbn in Hj. subst j.
    rewrite filter_cons_True by done. cbn [map snd]. rewrite IH. done.
Qed.

(** Two structs in one array, one behind the other with nothing between them: the
    demo with no capacity to spare, and a second one of the same type. *)
Definition two_σ : mem := mkMem {[ 0%nat := mbuf demo_m ++ [0; 0; 0; 8; 3; 0; 0] ]} ∅.
Definition two_hs : list hmsg :=
  [mkH (Some (mkSl 0 0 (zlen (mbuf demo_m)) (zlen (mbuf demo_m) + 3))) (oa (moff demo_m)) None;
   mkH (Some (mkSl 0 (zlen (mbuf demo_m) + 3) 2 4)) [0; 1; 0; 0; 0; 0; 0; 0] None].
Definition two_sch : list (nat * call) :=
  [(0%nat, CSet PInt32 1 (VNum 1)); (1%nat, CGet PInt32 1); (0%nat, CAppend 5 [8; 9]); (1%nat, CSet PString 2 (VString [1; 2; 3]));
   (0%nat, CGet PString 2); (1%nat, CSet PInt32 1 (VNum 128)); (0%nat, CIterate 4 (mkMtype 3 []) 5 (msg_zero (mkMtype 3 [])));
   (1%nat, CGet PString 2); (0%nat, CGet PInt32 1); (1%nat, CGet PInt32 1); (0%nat, CDecode [8; 77]); (1%nat, CEncode); (0%nat, CGet PInt32 1)].
Example C33_case :
  Forall (hwf two_σ) two_hs /\ all_separate two_hs /\
  Forall (fun p => (p.1 < length two_hs)%nat) two_sch /\
  (forall i mt h, [demo_mt; demo_mt] !! i = Some mt -> two_hs !! i = Some h -> (trace mt (abs two_σ h) (of_thread i two_sch)).2 = Ok tt) /\
  of_thread 1 (hrun tight (fun _ => 0%nat) [demo_mt; demo_mt] two_σ two_hs two_sch).1 =
    [AVal (VNum 3); AUnit; AUnit; AVal (VString [1; 2; 3]); AVal (VNum 128); ABytes [18; 3; 1; 2; 3; 8; 128; 1]].
Proof.
  split_and!.
  - constructor; [|constructor; [|constructor]]; (split_and!; [|exact I|discriminate]);
      exists (mbuf demo_m ++ [0; 0; 0; 8; 3; 0; 0]); (split; [reflexivity|]); vm_compute; intuition congruence.
  - intros [|[|i]] [|[|j]] h1 h2 Hne; cbn [lookup list_lookup two_hs]; try done; intros [= <-] [= <-];
      (split; [|discriminate]); intros a k [_ Hk] [_ Hk']; revert Hk Hk';
      change (zlen (mbuf demo_m)) with 31; cbn [soff scap]; lia.
  - repeat constructor.
  - intros [|[|i]] mt h; cbn [lookup list_lookup two_hs]; try done; intros [= <-] [= <-]; vm_compute; reflexivity.
  - vm_compute. reflexivity.
Qed.

(** ** C44: answers do not depend on capacities, growth policy or layout *)

Theorem C44_layout_independent grow1 grow2 spare1 spare2 mts σ1 σ2 hs1 hs2 sch :
  Forall (hwf σ1) hs1 -> all_separate hs1 -> Forall (hwf σ2) hs2 -> all_separate hs2 ->
  length mts = length hs1 ->
  map (abs σ1) hs1 = map (abs σ2) hs2 ->
  Forall (fun p => (p.1 < length hs1)%nat) sch ->
  (forall i mt h, mts !! i = Some mt -> hs1 !! i = Some h -> (trace mt (abs σ1 h) (of_thread i sch)).2 = Ok tt) ->
  exists ans1 ans2 r1 r2,
    hrun grow1 spare1 mts σ1 hs1 sch = (ans1, Ok r1) /\ hrun grow2 spare2 mts σ2 hs2 sch = (ans2, Ok r2) /\
    forall i, (i < length hs1)%nat -> of_thread i ans1 = of_thread i ans2.
Proof.
  intros W1 S1 W2 S2 Hl Habs Hidx Htr.
  assert (Hlen : length hs1 = length hs2) by (rewrite <- (map_length (abs σ1)), Habs, map_length; done).
  assert (Hsame : forall i h1 h2, hs1 !! i = Some h1 -> hs2 !! i = Some h2 -> abs σ1 h1 = abs σ2 h2).
  { intros i h1 h2 E1 E2. assert (E : map (abs σ1) hs1 !! i = map (abs σ2) hs2 !! i) by (rewrite Habs; done).
    rewrite !list_lookup_fmap, E1, E2 in E. apply (inj Some) in E. done. }
  destruct (hrun_refines grow1 spare1 mts sch σ1 hs1 W1 S1 Hl Hidx Htr) as (a1 & σ1' & hs1' & E1 & _ & _ & _ & A1).
  destruct (hrun_refines grow2 spare2 mts sch σ2 hs2 W2 S2) as (a2 & σ2' & hs2' & E2 & _ & _ & _ & A2).
  - congruence.
  - rewrite <- Hlen. done.
  - intros i mt h2 Hmt Hh2. destruct (lookup_lt_is_Some_2 hs1 i) as [h1 Hh1].
    { rewrite Hlen. eapply lookup_lt_Some; eauto. }
    rewrite <- (Hsame i h1 h2) by done. eauto.
  - exists a1, a2, (σ1', hs1'), (σ2', hs2'). split_and!; [done|done|]. intros i Hi.
    destruct (lookup_lt_is_Some_2 hs1 i Hi) as [h1 Hh1].
    destruct (lookup_lt_is_Some_2 hs2 i ltac:(lia)) as [h2 Hh2].
    destruct (lookup_lt_is_Some_2 mts i ltac:(lia)) as [mt Hmt].
    rewrite (A1 i mt h1), (A2 i mt h2) by done. rewrite (Hsame i h1 h2) by done. done.
Qed.

(** The two structs of C33_case once in one array with exact growth, once in
    arrays of their own with plenty of room. *)
Definition apart_put := h_put (fun _ => 40%nat) (mkMem ∅ ∅) demo_m.
Definition apart_put2 := h_put (fun _ => 40%nat) apart_put.1 (mkMsg [8; 3] (mkOffsets [0; 1; 0; 0; 0; 0; 0; 0] None)).
Example C44_case :
  map (abs two_σ) two_hs = map (abs apart_put2.1) [apart_put.2; apart_put2.2] /\
  (hrun tight (fun _ => 0%nat) [demo_mt; demo_mt] two_σ two_hs two_sch).1 =
  (hrun roomy (fun _ => 9%nat) [demo_mt; demo_mt] apart_put2.1 [apart_put.2; apart_put2.2] two_sch).1.
Proof. split; vm_compute; reflexivity. Qed.

(** ** C34: a sub-message and its parent *)

(** Any sequence of mutations of a struct [c] whose buffer starts at or behind the
    end of the part [b1] of the parent's buffer (as does a sub-message obtained
    from the parent, with [b1] ending at its payload): the bytes of [b1] and the
    length of the parent do not change, and a field whose last record lies in [b1]
    reads as before.  Missing: fields with records at or after the sub-message; for
    these the claim is false. *)
Theorem C34_child_mutation_partial grow mt sc os σ h s c d ms σ' c' b1 b2 f T :
  schema_ok mt sc -> history mt sc os (abs σ h) -> ops_size os < 2 ^ 63 -> hwf σ h -> hwf σ c ->
  h_buf h = Some s -> h_buf c = Some d -> (forall l, h_m h = Some l -> h_m c <> Some l) ->
  sbytes σ (Some s) = b1 ++ b2 -> soff s + zlen b1 <= soff d ->
  h_muts grow σ c ms = Ok (σ', c') ->
  (exists b2', sbytes σ' (Some s) = b1 ++ b2' /\ length b2' = length b2) /\
  (sc f = Some (KSingle T) -> (exists rs1, wire rs1 b1) -> (exists rs2, wire rs2 b2 /\ occ f rs2 = []) ->
   exists v v', h_get T σ h f = Ok v /\ h_get T σ' h f = Ok v' /\ hval_of σ' v' = hval_of σ v).
Proof. apply child_mutation. Qed.

(** The parent is field 1 = 5, field 3 = { field 1 = 7 }.  After child.SetField2(9)
    the parent still reads 5. *)
Definition par1_os : list op := [OSet 1 (VNum 5); OSet 3 (VBytes (Some [8; 7]))].
Definition par2_os : list op := [OSet 3 (VBytes (Some [8; 7])); OSet 1 (VNum 5)].
Definition par_put (os : list op) := h_put (fun _ => 0%nat) (mkMem ∅ ∅)
  match run demo_mt demo_sc (msg_zero demo_mt) os with Ok m => m | _ => msg_zero demo_mt end.
Definition child_mt : mtype := mkMtype 3 [].
Lemma par_hist os : os = par1_os \/ os = par2_os ->
  hwf (par_put os).1 (par_put os).2 /\ history demo_mt demo_sc os (abs (par_put os).1 (par_put os).2).
Proof.
  intros Hos. unfold par_put.
  destruct (h_put (fun _ => 0%nat) (mkMem ∅ ∅) match run demo_mt demo_sc (msg_zero demo_mt) os with Ok m => m | _ => msg_zero demo_mt end) as [σ h] eqn:E.
  destruct (h_put_ok _ _ _ _ _ E) as (_ & Hw & Ha & _). cbn [fst snd]. split; [done|]. rewrite Ha. split.
  - destruct Hos as [-> | ->];
      repeat (apply Forall_cons; split; [eexists; split; [reflexivity|]; cbn; try lia; repeat constructor; unfold is_byte; lia|]); constructor.
  - destruct Hos as [-> | ->]; vm_compute; reflexivity.
Qed.

Example C34_case :
  history demo_mt demo_sc par1_os (abs (par_put par1_os).1 (par_put par1_os).2) /\
  match h_message child_mt (par_put par1_os).1 (par_put par1_os).2 3 (mkH None [0; 0; 0] None) with
  | Ok (true, None, σ, c) =>
    sbytes σ (h_buf (par_put par1_os).2) = [8; 5; 26; 2] ++ [8; 7] /\
    match h_muts tight σ c [MSet PInt32 2 (VNum 9); MSet PInt32 1 (VNum 6)] with
    | Ok (σ', c') => h_get PInt32 σ' (par_put par1_os).2 1 = Ok (HVal (VNum 5)) /\ h_get PInt32 σ' c' 2 = Ok (HVal (VNum 9))
    | _ => False
    end
  | _ => False
  end.
Proof. split; [apply par_hist; auto|]. vm_compute. repeat split. Qed.

(** With the records in the other order, child.SetField2(9) overwrites the
    parent's field 1, although child.SetField2 succeeds and the parent is never
    written through: field 1 reads 9 instead of 5. *)
Theorem C34_sibling_overwritten_refuted :
  exists σ h σ1 c σ' c',
    hwf σ h /\ history demo_mt demo_sc par2_os (abs σ h) /\
    h_get PInt32 σ h 1 = Ok (HVal (VNum 5)) /\
    h_message child_mt σ h 3 (mkH None [0; 0; 0] None) = Ok (true, None, σ1, c) /\
    h_set tight PInt32 σ1 c 2 (VNum 9) = Ok (σ', c') /\
    h_get PInt32 σ' h 1 = Ok (HVal (VNum 9)).
Proof.
  exists (par_put par2_os).1, (par_put par2_os).2. eexists _, _, _, _.
  destruct (par_hist par2_os ltac:(auto)) as [H1 H2].
  split; [exact H1|]. split; [exact H2|].
  split; [vm_compute; reflexivity|]. split; [vm_compute; reflexivity|]. split; [vm_compute; reflexivity|]. vm_compute. reflexivity.
Qed.

Print Assumptions C29_reads_never_write.
Print Assumptions C29_concurrent_readers.
Print Assumptions C30_views.
Print Assumptions C30_decoded_views.
Print Assumptions C30_next_is_find.
Print Assumptions C30_wire_type_mismatch_refuted.
Print Assumptions C31_own_buffer_only.
Print Assumptions C32_argument_copied_partial.
Print Assumptions C32_self_view_partial.
Print Assumptions C32_append_copied_partial.
Print Assumptions C32_self_view_refuted.
Print Assumptions C32_own_value_refuted.
Print Assumptions C32_spare_capacity_refuted.
Print Assumptions C33_independent.
Print Assumptions C44_layout_independent.
Print Assumptions C34_child_mutation_partial.
Print Assumptions C34_sibling_overwritten_refuted.

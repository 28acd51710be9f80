(** * Property C72: every history over any bytes is a history of bytes and positions *)
From Verif Require Import Api Spec SpecScan SpecFind SpecPos Demo.
From Verif Require Import VarintFacts OffsetsFacts RecFacts ScanFacts FindFacts PosFacts.

Lemma pinv_zero mt : pinv mt 0 (msg_zero mt) pempty.
Proof.
  unfold pinv, plen, pempty, msg_zero. cbn [mbuf moff pbytes ppos length].
  destruct (offsets_zero_ok (alen mt)) as (Hwf & Hl & Hf).
  split_and!; [apply replicate_length|exact Hwf|reflexivity|constructor|cbn; lia|].
  intros f _. split; [apply Hf|discriminate].
Qed.

(** Every history of setters, appends, decodes of arbitrary bytes (whether or not
    they report an error) and resets, on a struct of any type, ends as the machine
    of SpecPos.v says; if all calls return, Encode, every getter, iteration over
    every field and every sub-message accessor answer what it says.  No condition
    on the bytes. *)
Theorem C72_any_history mt cs :
  let n := Z.of_nat (alen mt) in
  n <= 2 ^ 29 -> Forall (mutation_ok n) cs -> mutations_size cs < 2 ^ 62 ->
  (exists r, mutates_all n (reps mt) pempty cs r) /\
  forall r, mutates_all n (reps mt) pempty cs r ->
    match r with
    | OBeyond => p_run mt (msg_zero mt) cs = PastLen
    | OFault => p_run mt (msg_zero mt) cs = Panic
    | OLoops => p_run mt (msg_zero mt) cs = OutOfFuel
    | Reached s => exists m, p_run mt (msg_zero mt) cs = Ok m /\ m_Encode m = pbytes s /\
        (forall f T, 0 <= f < n -> (exists g, gets T s f g) /\
           forall g, gets T s f g ->
             m_get T m f = match g with Value v => Ok v | Beyond => PastLen | Fault => Panic end) /\
        (forall f, 1 <= f < n -> (exists xs e, loops_over s f xs e) /\
           forall xs e, loops_over s f xs e -> forall mt' x k, (length xs < k)%nat ->
             m_iterate k mt' m f x =
               (let* l := decode_each mt' x xs in
                match e with EDone => Ok l | EBeyond => PastLen | EFault => Panic | ELoops => OutOfFuel end)) /\
        (forall f mt' x g, 0 <= f < n -> gets PBytes s f g ->
             m_Message mt' m f x =
               match g with
               | Value (VBytes (Some sub)) => let* (suberr, x') := m_Decode mt' x sub in Ok (true, suberr, x')
               | Value _ => Ok (false, None, x)
               | Beyond => PastLen
               | Fault => Panic
               end)
    end.
Proof.
  intros n Hn Hok Hsz. destruct (run_sound mt Hn cs 0 (msg_zero mt) pempty (pinv_zero mt) Hok ltac:(rewrite Z.add_0_l; exact Hsz)) as [Hex Hs].
  split; [exact Hex|]. intros r Hr. specialize (Hs r Hr). rewrite Z.add_0_l in Hs. destruct r as [s| | |]; try exact Hs.
  destruct Hs as (m & He & Hi). exists m. split; [exact He|].
  assert (HG : forall f T, 0 <= f < n -> (exists g, gets T s f g) /\ forall g, gets T s f g -> m_get T m f = outcome g)
    by (intros f T Hf; exact (get_sound mt _ m s f T Hi Hsz Hf)).
  split; [apply Hi|]. split; [exact HG|]. split.
  - intros f Hf. destruct (loop_sound mt _ m s f Hi Hsz Hf) as [(xs & e & Hl & _) Hall]. split; [eauto|exact Hall].
  - intros f mt' x g Hf Hg. destruct (HG f PBytes Hf) as [_ H]. specialize (H g Hg). unfold m_Message. cbn [m_get] in H.
    destruct (GetBytes (mbuf m) (moff m) f) as [o| | |]; cbn [rbind] in *; destruct g as [v| |]; cbn [outcome] in H; try discriminate; try reflexivity.
    injection H as <-. destruct o; reflexivity.
Qed.

(** Cases: the setter of a field whose tag was not minimal leaves a stray byte;
    the setter of an unsigned field whose record is a fixed64 that reads as an
    overlong varint stretches the message; the setter of a field cut off by the
    end of the message panics; a length of 2^64-11 makes Decode loop; and a history
    with a failed Decode in the middle goes on. *)
Definition pos_mt : mtype := mkMtype 5 [4].
Definition stray : list mutation := [PDecode [16; 5; 136; 0; 1]; PSet 1 PInt32 (VNum 300)].
Definition stretch : list mutation :=
  [PDecode ([26; 8; 0; 0; 0; 0; 0; 0; 0; 0; 9] ++ [128; 128; 128; 128; 128; 128; 128; 128; 144; 128; 0; 5]); PSet 1 PUint64 (VNum 7)].
Definition cutoff : list mutation := [PDecode [10; 5; 65]; PSet 1 PBytes (VBytes (Some [1]))].
Definition endless : list mutation := [PDecode [10; 245; 255; 255; 255; 255; 255; 255; 255; 255; 1]].
Definition mixed : list mutation :=
  [PAppend 4 [1]; PDecode [16; 5; 10; 9; 65]; PSet 2 PInt32 (VNum 300); PAppend 4 [7; 8]; PSet 3 PString (VString [66])].

Lemma run_case cs : Forall (mutation_ok 5) cs -> mutations_size cs < 2 ^ 62 ->
  exists r, mutates_all 5 [4] pempty cs r /\
    match r, p_run pos_mt (msg_zero pos_mt) cs with
    | Reached s, Ok m => pbytes s = mbuf m
    | OBeyond, PastLen | OFault, Panic | OLoops, OutOfFuel => True
    | _, _ => False
    end.
Proof.
  intros Hok Hsz. destruct (C72_any_history pos_mt cs ltac:(cbn; lia) Hok Hsz) as [(r & Hr) Hs]. exists r. split; [exact Hr|].
  specialize (Hs r Hr). destruct r as [s| | |].
  - destruct Hs as (m & -> & Hm & _). unfold m_Encode in Hm. congruence.
  - rewrite Hs. exact I.
  - rewrite Hs. exact I.
  - rewrite Hs. exact I.
Qed.

Example C72_case :
  (exists s, mutates_all 5 [4] pempty stray (Reached s) /\ pbytes s = [16; 5; 136; 8; 172; 2]) /\
  mutates_all 5 [4] pempty stretch OBeyond /\
  mutates_all 5 [4] pempty cutoff OFault /\
  mutates_all 5 [4] pempty endless OLoops /\
  (exists s, mutates_all 5 [4] pempty mixed (Reached s) /\ pbytes s = [10; 9; 65; 16; 172; 2; 34; 2; 7; 8; 26; 1; 66]).
Proof.
  assert (Hb : forall b, 0 <= b < 256 -> is_byte b) by (intros b H; exact H).
  assert (H : forall cs, forallb (fun c => match c with
      | PSet f T v => (0 <=? f) && (f <? 5)
      | PAppend f x => (0 <=? f) && (f <? 5) && forallb (fun b => (0 <=? b) && (b <? 256)) x
      | PDecode bs => forallb (fun b => (0 <=? b) && (b <? 256)) bs
      | PReset _ => true end) cs = true ->
    Forall (fun c => match c with PSet _ T v => in_type T v | _ => True end) cs -> Forall (mutation_ok 5) cs).
  { assert (Hf : forall l, forallb (fun b => (0 <=? b) && (b <? 256)) l = true -> Forall is_byte l).
    { intros l Hl. rewrite forallb_forall in Hl. apply Forall_forall. intros x Hx. apply elem_of_list_In, Hl in Hx.
      apply andb_prop in Hx. unfold is_byte. lia. }
    intros cs H1 H2. rewrite forallb_forall in H1. rewrite Forall_forall in H2. apply Forall_forall. intros c Hc. pose proof Hc as Hc'.
    apply elem_of_list_In, H1 in Hc. apply H2 in Hc'. destruct c as [f T v|f x|bs|bs]; cbn [mutation_ok].
    - apply andb_prop in Hc. split; [lia|exact Hc'].
    - apply andb_prop in Hc as [Hc1 Hc2]. apply andb_prop in Hc1. split; [lia|apply Hf, Hc2].
    - apply Hf, Hc.
    - exact I. }
  assert (Hit : forall T v, in_type T v -> True) by auto.
  split; [|split; [|split; [|split]]].
  - destruct (run_case stray) as (r & Hr & Hm); [apply H; [reflexivity|repeat constructor; cbn; unfold is_byte; lia]|reflexivity|].
    assert (E : match p_run pos_mt (msg_zero pos_mt) stray with Ok m => mbuf m = [16; 5; 136; 8; 172; 2] | _ => False end) by (vm_compute; reflexivity).
    destruct (p_run pos_mt (msg_zero pos_mt) stray) as [m| | |]; try contradiction.
    destruct r as [s| | |]; try contradiction. exists s. split; [exact Hr|]. rewrite Hm. exact E.
  - destruct (run_case stretch) as (r & Hr & Hm); [apply H; [reflexivity|repeat constructor; cbn; lia]|reflexivity|].
    destruct r; try exact Hr; vm_compute in Hm; contradiction.
  - destruct (run_case cutoff) as (r & Hr & Hm); [apply H; [reflexivity|repeat constructor; cbn; unfold is_byte; lia]|reflexivity|].
    destruct r; try exact Hr; vm_compute in Hm; contradiction.
  - destruct (run_case endless) as (r & Hr & Hm); [apply H; [reflexivity|repeat constructor; cbn; lia]|reflexivity|].
    destruct r; try exact Hr; vm_compute in Hm; contradiction.
  - destruct (run_case mixed) as (r & Hr & Hm); [apply H; [reflexivity|repeat constructor; cbn; unfold is_byte; lia]|reflexivity|].
    assert (E : match p_run pos_mt (msg_zero pos_mt) mixed with Ok m => mbuf m = [10; 9; 65; 16; 172; 2; 34; 2; 7; 8; 26; 1; 66] | _ => False end) by (vm_compute; reflexivity).
    destruct (p_run pos_mt (msg_zero pos_mt) mixed) as [m| | |]; try contradiction.
    destruct r as [s| | |]; try contradiction. exists s. split; [exact Hr|]. rewrite Hm. exact E.
Qed.

Print Assumptions C72_any_history.

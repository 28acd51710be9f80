(** * Properties C63-C65: the invariant of the offsets, and recovered panics *)
From Verif Require Import PanicState Heap HeapApi Demo.
From Verif Require Import VarintFacts OffsetsFacts RecFacts ApiInv Core Core3 PanicFacts PanicDecode.
From Coq Require Import ZifyBool.

(** ** The calls

    [call_st] (PanicState.v) gives the struct after a call also when the call
    panics.  It is the same program as [exec]: same outcome, and the same struct
    if the call returns. *)
Theorem C63_same_program mt m c :
  (call_st mt m c).1 = (let* (a, _) := exec mt m c in Ok a) /\
  forall a m', exec mt m c = Ok (a, m') -> call_st mt m c = (Ok a, m').
Proof.
  destruct (call_st_exec mt m c) as [H1 H2]. split; [exact H1|].
  intros a m' E. rewrite E in H1. specialize (H2 a m' E). destruct (call_st mt m c). cbn in *. subst. done.
Qed.

(** ** C63 *)

(** The invariant documented at offsets.go:21-25 and checked by the repository's
    own tests (verifyOffsetsInvariants, zeropb_test.go:169-187): the array cell of a
    field holds the sentinel 65535 exactly when the field is a key of the map. *)
Definition documented_invariant (o : offsets) : Prop :=
  forall f, (0 <= f /\ oa o !! Z.to_nat f = Some 65535) <-> (exists m, om o = Some m /\ is_Some (m !! f)).

(** It holds, and the array has its length, in every state that any sequence of
    calls can reach: any arguments, any bytes given to Decode, also after panics
    the client recovered from.  Missing (hence _partial): a setter that extends the
    message into spare capacity, see below; in this model such a setter panics. *)
Theorem C63_invariant_partial mt m :
  reachable mt m -> documented_invariant (moff m) /\ length (oa (moff m)) = alen mt.
Proof.
  intros H. destruct (reachable_owf mt m H) as [(_ & H2 & _) Hl]. split.
  - intros f. rewrite <- H2. unfold mget. destruct (om (moff m)) as [mm|].
    + split; [eauto|]. intros (? & [= <-] & ?). done.
    + split; [intros [? ?]; discriminate|intros (? & ? & _); discriminate].
  - unfold zlen in Hl. lia.
Qed.

(** A client that decodes a message longer than 65535 bytes, mutates it so that
    offsets move from the map to the array, then decodes bytes on which Decode
    panics, recovers, and mutates the remains: all these states are reachable. *)
Definition big_mt : mtype := mkMtype 5 [].
Definition hist_calls : list call :=
  [CSet PBytes 4 (VBytes (Some (replicate (Z.to_nat 65535) 0))); CSet PUint64 2 (VNum 2000000);
   CSet PBytes 4 (VBytes (Some [1; 2])); CDecode [8; 7; 11; 0]; CSet PUint64 1 (VNum 300)].
Fixpoint run_st (mt : mtype) (m : msg) (cs : list call) : list (res answer * msg) :=
  match cs with
  | [] => []
  | c :: cs => call_st mt m c :: run_st mt (call_st mt m c).2 cs
  end.
Definition no_panic {A} (r : res A) : bool := match r with Ok _ => true | _ => false end.
Example C63_case :
  let tr := run_st big_mt (msg_zero big_mt) hist_calls in
  map (fun p => no_panic p.1) tr = [true; true; true; false; true] /\
  map (fun p => oa (moff p.2)) tr =
    [[0; 0; 0; 0; 1]; [0; 0; 65535; 0; 1]; [0; 0; 1; 0; 5]; [0; 3; 0; 0; 0]; [0; 3; 0; 0; 0]] /\
  Forall (fun p => zlen (mbuf p.2) < 2 ^ 63) tr /\
  reachable big_mt (default (msg_zero big_mt) (snd <$> last tr)).
Proof.
  assert (Hb : Forall (fun p => zlen (mbuf p.2) < 2 ^ 63) (run_st big_mt (msg_zero big_mt) hist_calls)).
  { apply Forall_forall. intros p Hp. change (2 ^ 63) with 9223372036854775808.
    assert (Hc : forallb (fun p => zlen (mbuf p.2) <? 9223372036854775808) (run_st big_mt (msg_zero big_mt) hist_calls) = true)
      by (vm_compute; reflexivity).
    rewrite forallb_forall in Hc. apply elem_of_list_In in Hp. specialize (Hc p Hp). lia. }
  assert (Hr : forall mt cs m, reachable mt m -> zlen (mbuf m) < 2 ^ 63 ->
     Forall (fun p => zlen (mbuf p.2) < 2 ^ 63) (run_st mt m cs) ->
     forall d, reachable mt d -> reachable mt (default d (snd <$> last (run_st mt m cs)))).
  { clear. intros mt cs. induction cs as [|c cs IH]; intros m Hm Hl Hf d Hd; [exact Hd|].
    cbn [run_st] in *. apply Forall_cons in Hf as [Hf1 Hf2].
    pose proof (reachable_call mt m c Hm Hl) as Hm'.
    specialize (IH _ Hm' Hf1 Hf2 _ Hm').
    destruct (run_st mt (call_st mt m c).2 cs) as [|p l] eqn:E; [exact Hm'|].
    change (last (call_st mt m c :: p :: l)) with (last (p :: l)).
    destruct (last (p :: l)) as [q|] eqn:Eq; [exact IH|]. exfalso.
    apply last_None in Eq. discriminate. }
  split; [vm_compute; reflexivity|]. split; [vm_compute; reflexivity|]. split; [exact Hb|].
  apply Hr; [constructor|vm_compute; reflexivity|exact Hb|constructor].
Qed.

(** With spare capacity behind the message the invariant does not hold: field 1 is
    sent as a fixed64 (the schema says varint), its bytes and the next tag read as a
    varint that is too long, its size comes out as -12, so the setter extends the
    message by 11 bytes into the spare capacity and adds 11 to the offset of
    field 3, which makes it the sentinel without a map entry.  Field 3 then reads
    from offset 0. *)
Definition past_bytes : list Z :=
  [18; 12] ++ replicate 12 0 ++ [9] ++ replicate 8 255 ++ [146; 128; 128; 0; 213; 255; 3] ++
  replicate (Z.to_nat 65493) 7 ++ [24; 1].
Theorem C63_spare_capacity_refuted :
  exists σ s σ1 h1 σ2 h2 grow,
    sbytes σ s = past_bytes /\
    h_decode (mkMtype 4 []) σ (mkH None (replicate 4 0) None) s = Ok (None, σ1, h1) /\
    h_set grow PUint64 σ1 h1 1 (VNum 5) = Ok (σ2, h2) /\
    m_get PUint32 (abs σ1 h1) 3 = Ok (VNum 1) /\ m_get PUint32 (abs σ2 h2) 3 = Ok (VNum 18) /\
    ~ documented_invariant (hoffs σ2 h2).
Proof.
  exists (mkMem {[ 0%nat := past_bytes ++ replicate 11 0 ]} ∅), (Some (mkSl 0 0 65525 65536)).
  set (σ := mkMem _ _). set (s := Some _).
  assert (E : match h_decode (mkMtype 4 []) σ (mkH None (replicate 4 0) None) s with
          | Ok (None, σ1, h1) =>
            match h_set (fun _ _ n => n) PUint64 σ1 h1 1 (VNum 5) with
            | Ok (σ2, h2) =>
              match m_get PUint32 (abs σ1 h1) 3, m_get PUint32 (abs σ2 h2) 3 with
              | Ok (VNum x), Ok (VNum y) =>
                (x =? 1) && (y =? 18) && (default 0 (oa (hoffs σ2 h2) !! 3%nat) =? 65535) &&
                match om (hoffs σ2 h2) with Some m => negb (bool_decide (is_Some (m !! 3))) | None => true end
              | _, _ => false
              end
            | _ => false end
          | _ => false end = true) by (vm_compute; reflexivity).
  destruct (h_decode _ _ _ _) as [[[[e|] σ1] h1]| | |] eqn:E1; try discriminate E.
  destruct (h_set _ _ _ _ _ _) as [[σ2 h2]| | |] eqn:E2; try discriminate E.
  destruct (m_get PUint32 (abs σ1 h1) 3) as [[?|x|?|?]| | |] eqn:E3; try discriminate E.
  destruct (m_get PUint32 (abs σ2 h2) 3) as [[?|y|?|?]| | |] eqn:E4; try discriminate E.
  apply andb_prop in E as [E E8]. apply andb_prop in E as [E E7]. apply andb_prop in E as [E5 E6].
  exists σ1, h1, σ2, h2, (fun _ _ n => n).
  assert (E9 : bool_decide (sbytes σ s = past_bytes) = true) by (vm_compute; reflexivity).
  apply bool_decide_eq_true in E9.
  clearbody σ s.
  split; [exact E9|]. split; [reflexivity|]. split; [exact E2|]. split; [|split].
  - rewrite E3. do 2 f_equal. lia.
  - rewrite E4. do 2 f_equal. lia.
  - intros Hi. destruct (oa (hoffs σ2 h2) !! 3%nat) as [c|] eqn:Ec; cbn in E7; [|discriminate].
    destruct (proj1 (Hi 3)) as (mm & Em & Hs).
    + split; [lia|]. change (Z.to_nat 3) with 3%nat. rewrite Ec. f_equal. lia.
    + rewrite Em in E8. rewrite bool_decide_eq_true_2 in E8 by exact Hs. discriminate.
Qed.

(** ** C64 *)

(** A setter that panics (and whose panic is recovered) has changed nothing,
    in any reachable state and for any arguments, if it panicked on an index or a
    slice that is out of range anyway.  If it panicked when reslicing the buffer
    (a panic only without enough spare capacity), the offsets and the length of
    the message are still as before and the bytes of the field, read as a varint,
    are overlong or give a length that no slice has: such bytes belong to a field
    sent with another wire type, or were accepted by Decode although malformed.
    Appending to a repeated field of the type never panics.
    Missing: in the second case the bytes of the message may have moved, see
    below. *)
Theorem C64_panic_atomic_partial mt m T f v m' :
  reachable mt m -> zlen (mbuf m) < 2 ^ 62 ->
  (call_st mt m (CSet T f v) = (Panic, m') -> m' = m) /\
  (call_st mt m (CSet T f v) = (PastLen, m') ->
     moff m' = moff m /\ length (m_Encode m') = length (m_Encode m) /\
     exists off x n, offsets_get (moff m) f = Ok (off, true) /\
       uvarint (drop (Z.to_nat off) (m_Encode m)) = (x, n) /\ (n < 0 \/ 2 ^ 63 <= x + n)) /\
  (forall x, 0 <= f < Z.of_nat (alen mt) -> exists m', call_st mt m (CAppend f x) = (Ok AUnit, m')).
Proof.
  intros Hm Hl. assert (Hl3 : zlen (mbuf m) < 2 ^ 63) by (pows; lia).
  destruct (reachable_owf mt m Hm) as [Ho Hn].
  pose proof (p_set_atomic T f v m Ho Hl3) as Ha. unfold atomic in Ha.
  assert (Heta : mkMsg (mbuf m) (moff m) = m) by (destruct m; done).
  split_and!.
  - unfold call_st, pbind. destruct (p_set T f v (mbuf m, moff m)) as [[u| | |] s]; cbn [fst snd] in *; try discriminate.
    intros E. injection E as <-. rewrite Ha. exact Heta.
  - intros E.
    assert (Ep : (p_set T f v (mbuf m, moff m)).1 = PastLen /\ m' = mkMsg (p_set T f v (mbuf m, moff m)).2.1 (p_set T f v (mbuf m, moff m)).2.2).
    { revert E. unfold call_st, pbind. destruct (p_set T f v (mbuf m, moff m)) as [[u| | |] s]; cbn [fst snd] in *; try discriminate.
      intros E. injection E as <-. done. }
    destruct Ep as [Ep ->]. rewrite Ep in Ha. destruct Ha as [Ha1 Ha2]. cbn [fst snd] in Ha1, Ha2.
    cbn [moff mbuf m_Encode]. split; [exact Ha1|]. split; [unfold m_Encode; cbn [mbuf]; unfold zlen in Ha2; lia|].
    assert (Hs : exists typ vl val, (p_setSingle f typ vl val (mbuf m, moff m)).1 = PastLen).
    { clear - Ep. unfold p_set, pbind, pread in Ep. unfold put_varint in Ep.
      destruct T, v; try discriminate Ep; eauto;
        match type of Ep with context [put_uvarint ?c ?x] =>
          destruct (HeapSet.put_uvarint_res c x) as [Q|(vb & Q & _)]; rewrite Q in Ep; [discriminate Ep|eauto] end. }
    destruct Hs as (typ & vl & val & Hs).
    destruct (p_setSingle_past f typ vl val (mbuf m) (moff m) Ho Hl Hs) as (off & ol & E1 & E2 & E3).
    destruct (old_len_negative _ _ _ _ E2 E3) as (_ & x & n & E4 & E5).
    exists off, x, n. split; [exact E1|]. split; [exact E4|]. destruct E5 as [?|[_ ?]]; auto.
  - intros x Hf. destruct (p_append_ok f x m Ho) as [s E]; [unfold in_range; lia|].
    exists (mkMsg s.1 s.2). unfold call_st, pbind, pret. rewrite E. done.
Qed.

(** The message of C63_spare_capacity_refuted in small, without spare capacity:
    Decode accepts it, the setter panics, and the bytes have been overwritten:
    field 2 no longer reads as it did. *)
Definition moved_bytes : list Z :=
  [18; 12] ++ replicate 12 65 ++ [9] ++ replicate 8 255 ++ [152; 128; 128; 0; 1].
Theorem C64_bytes_moved_refuted :
  exists mt m m' σ h grow,
    call_st mt (msg_zero mt) (CDecode moved_bytes) = (Ok (AError None), m) /\
    abs σ h = m /\ h_buf h = Some (mkSl 0 0 28 28) /\
    h_set grow PUint64 σ h 1 (VNum 5) = Panic /\
    call_st mt m (CSet PUint64 1 (VNum 5)) = (PastLen, m') /\
    m_get PUint32 m 3 = Ok (VNum 1) /\ m_get PUint32 m' 3 <> Ok (VNum 1) /\
    m_Encode m' <> m_Encode m.
Proof.
  exists (mkMtype 4 []). eexists _, _, (mkMem {[ 0%nat := moved_bytes ]} ∅), (mkH (Some (mkSl 0 0 28 28)) [0; 15; 1; 27] None), (fun _ _ n => n).
  split; [vm_compute; reflexivity|]. split; [vm_compute; reflexivity|]. split; [reflexivity|].
  split; [vm_compute; reflexivity|]. split; [vm_compute; reflexivity|]. split; [vm_compute; reflexivity|].
  split; vm_compute; discriminate.
Qed.

(** A setter that panics on a reachable struct: the field is recorded, but its
    value is missing. *)
Example C64_case :
  let m := (call_st (mkMtype 3 []) (msg_zero (mkMtype 3 [])) (CDecode [10; 200; 1; 7])).2 in
  reachable (mkMtype 3 []) m /\ (call_st (mkMtype 3 []) m (CSet PBytes 1 (VBytes (Some [1])))).1 = Panic.
Proof. split; [|vm_compute; reflexivity]. apply reachable_call; [constructor|vm_compute; reflexivity]. Qed.

(** After any calls and any panics, Decode and Reset make the struct as good as
    new: from then on no sequence of calls can tell it from a fresh one. *)
Theorem C64_reuse mt m buf cs :
  reachable mt m ->
  trace mt m (CDecode buf :: cs) = trace mt (msg_zero mt) (CDecode buf :: cs) /\
  trace mt m (CReset [] :: cs) = trace mt (msg_zero mt) (CReset [] :: cs).
Proof.
  intros H. destruct (reachable_owf mt m H) as [_ Hl].
  assert (Ht : of_type mt m) by (unfold of_type; unfold zlen in Hl; lia).
  assert (H0 : of_type mt (msg_zero mt)).
  { unfold of_type, msg_zero, offsets_zero. cbn. apply replicate_length. }
  split; [apply decode_forgets; assumption|].
  destruct (proj1 (reset_fresh mt m Ht)) as (m1 & E1 & _ & H1).
  destruct (proj1 (reset_fresh mt _ H0)) as (m2 & E2 & _ & H2).
  cbn [trace exec]. rewrite E1, E2. cbn [rbind]. rewrite H1, H2. done.
Qed.

(** ** C65 *)

(** A message [b0] (any well-formed message that fits the type) followed by a
    record Decode does not support (a group, or a field number beyond the
    array): Decode panics, and if the panic is recovered, every non-repeated
    field other than the one it panicked on reads what the records of [b0] say.
    In particular a proto2 group or an unknown large field number does not make
    the fields before it unreadable. *)
Theorem C65_recovered_decode mt m0 rs b0 tag tb r :
  of_type mt m0 -> wire rs b0 -> Forall (fun x => x.1 < Z.of_nat (alen mt)) rs ->
  is_varint tag tb -> r <> [] -> Z.of_nat (length (b0 ++ tb ++ r)) < 2 ^ 63 ->
  Z.of_nat (alen mt) <= tag / 8 \/ ~ (tag mod 8 = 0 \/ tag mod 8 = 1 \/ tag mod 8 = 2 \/ tag mod 8 = 5) ->
  exists m, call_st mt m0 (CDecode (b0 ++ tb ++ r)) = (Panic, m) /\
    m_Encode m = b0 ++ tb ++ r /\
    forall g T, 0 <= g < Z.of_nat (alen mt) -> ~ In g (reps mt) -> g <> tag / 8 ->
      (forall w, last (occ g rs) = Some w -> conforms T w) ->
      m_get T m g = Ok (read_single T (occ g rs)).
Proof. apply decode_panic_state. Qed.

(** The demo message followed by a group of field 2. *)
Example C65_case :
  of_type demo_mt demo_m /\ wire demo_rs demo_bs2 /\ Forall (fun x => x.1 < Z.of_nat (alen demo_mt)) demo_rs /\
  is_varint 19 [19] /\ ~ (19 mod 8 = 0 \/ 19 mod 8 = 1 \/ 19 mod 8 = 2 \/ 19 mod 8 = 5) /\
  match call_st demo_mt demo_m (CDecode (demo_bs2 ++ [19] ++ [8; 1; 20])) with
  | (Panic, m) => m_get PInt32 m 1 = Ok (VNum 7)
  | _ => False
  end.
Proof.
  split_and!; try (vm_compute; reflexivity).
  - exact demo_wire2.
  - repeat constructor; cbn; lia.
  - apply small_varint. lia.
  - vm_compute. intuition discriminate.
Qed.

Print Assumptions C63_same_program.
Print Assumptions C63_invariant_partial.
Print Assumptions C63_spare_capacity_refuted.
Print Assumptions C64_panic_atomic_partial.
Print Assumptions C64_bytes_moved_refuted.
Print Assumptions C64_reuse.
Print Assumptions C65_recovered_decode.

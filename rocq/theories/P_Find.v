(** * Property C71: iterators and sub-message accessors on every byte string *)
From Verif Require Import Api Spec SpecScan SpecFind Demo.
From Verif Require Import VarintFacts OffsetsFacts RecFacts DecodeFacts GetFacts Fuel Core Core5 ScanFacts FindFacts P_Scan.

(** The outcome of FindNextField, which the Next methods of the iterators call, on
    any bytes: it is determined by SpecFind.next, with no condition on the bytes,
    and reached within [len + 2] iterations or never. *)
Theorem C71_find_next field b :
  Forall is_byte b -> Z.of_nat (length b) < 2 ^ 62 ->
  exists r, next field b r /\ (forall r', next field b r' -> r' = r) /\
    forall fuel, (r = NLoops \/ (length b + 2 <= fuel)%nat) ->
      FindNextField fuel (Some b) field =
        match r with
        | More x rest => Ok (Some rest, Some x)
        | Last x => Ok (None, Some x)
        | NBeyond => PastLen
        | NFault => Panic
        | NLoops => OutOfFuel
        end.
Proof.
  intros Hb Hl. destruct (FindNextField_total field b Hb Hl) as (r & Hr & He & Hd). exists r.
  split; [exact Hr|]. split; [intros r' Hr'; exact (next_det field b Hb Hl _ _ Hr' Hr)|].
  intros fuel Hf. assert (Hn : r = NLoops \/ r <> NLoops) by (destruct r; auto; right; discriminate).
  destruct Hn as [->|Hn]; [apply Hd; reflexivity|].
  destruct Hf as [?|Hf]; [contradiction|]. fold (find_result r). rewrite <- He.
  unfold FindNextField in *. destruct (uvarint b) as [len n]. cbv zeta in *.
  destruct (slice_range b n _) as [x| | |]; cbn [rbind] in *; try reflexivity.
  rewrite (find_mono field b Hb Hl (fuel_of b) fuel); [reflexivity|unfold fuel_of; lia|].
  intros E. rewrite E in He. cbn in He. destruct r; cbn in He; congruence.
Qed.

(** A successful Next of a field number other than 0 leaves strictly fewer bytes,
    whatever the bytes are: a loop over an iterator makes at most [len + 1] calls. *)
Theorem C71_progress field b x rest fuel :
  1 <= field -> Forall is_byte b -> Z.of_nat (length b) < 2 ^ 62 ->
  FindNextField fuel (Some b) field = Ok (Some rest, Some x) -> (length rest < length b)%nat /\ (length x < length b)%nat.
Proof.
  intros Hf Hb Hl He. destruct (FindNextField_total field b Hb Hl) as (r & Hr & Hd & Hinf).
  assert (E : FindNextField (fuel_of b) (Some b) field = Ok (Some rest, Some x)).
  { revert He. unfold FindNextField. destruct (uvarint b) as [len n]. cbv zeta.
    destruct (slice_range b n _) as [y| | |]; cbn [rbind]; try discriminate.
    destruct (find_loop fuel b field _) as [q| | |] eqn:Eq; cbn [rbind]; try discriminate. intros He. injection He as -> ->.
    rewrite (find_settles field b Hb Hl fuel _ (Ok (Some rest))); [reflexivity|exact Eq|discriminate]. }
  rewrite E in Hd. destruct r as [x' rest'|x'| | |]; cbn in Hd; try discriminate. injection Hd as <- <-.
  destruct (more_shorter field b Hb x rest Hf Hr) as [Hs _]. split; [exact Hs|].
  inversion Hr as [x' hi k i p Hx Hk Hp| | | | |]; subst. destruct Hx as [len n hi Hv -> H1 H2].
  rewrite firstn_length, skipn_length.
  destruct (decide (n = 0)) as [->|]; [|lia].
  destruct (varint_at_small _ _ _ Hb Hv) as (_ & _ & _ & H0). rewrite H0 by lia.
  change (Z.to_nat (signed64 (0 + 0) - 0)) with 0%nat. rewrite Nat.min_0_l. lia.
Qed.

(** The loop over the iterator of a repeated field [f], after Decode returned (with
    or without an error) on any bytes: the elements delivered are those found by
    the search from the field's first record, each decoded in turn; then it
    ends, panics, reaches beyond the message or never returns, as specified. *)
Theorem C71_iterate mt m bs err m' :
  of_type mt m -> Forall is_byte bs -> Z.of_nat (length bs) < 2 ^ 62 -> m_Decode mt m bs = Ok (err, m') ->
  let n := Z.of_nat (alen mt) in
  exists l,
    (match err with
     | None => walk n bs 0 l (Z.of_nat (length bs))
     | Some _ => exists l1 j l2, l = l1 ++ l2 /\ walk n bs 0 l1 j /\ ends_early n bs j l2
     end) /\
    forall f mt' x k, 1 <= f < n -> (length bs + 1 < k)%nat ->
      match recorded (reps mt) f l None with
      | None => m_iterate k mt' m' f x = Ok []
      | Some p => exists xs e, delivers f (at_pos bs p) xs e /\
          (forall xs' e', delivers f (at_pos bs p) xs' e' -> xs' = xs /\ e' = e) /\
          m_iterate k mt' m' f x =
            (let* res := decode_each mt' x xs in
             match e with EDone => Ok res | EBeyond => PastLen | EFault => Panic | ELoops => OutOfFuel end)
      end.
Proof.
  intros Ht Hb Hl He n.
  assert (Hl63 : zlen bs < 2 ^ 63) by (unfold zlen; revert Hl; change (2 ^ 62) with 4611686018427387904; pows; lia).
  destruct (m_Decode_bounds _ _ _ _ _ Ht Hl63 He) as (Hbuf & Hwf & Hlo & Hbd).
  assert (HG : forall l, positions mt bs l m' -> forall f mt' x k, 1 <= f < n -> (length bs + 1 < k)%nat ->
      match recorded (reps mt) f l None with
      | None => m_iterate k mt' m' f x = Ok []
      | Some p => exists xs e, delivers f (at_pos bs p) xs e /\
          (forall xs' e', delivers f (at_pos bs p) xs' e' -> xs' = xs /\ e' = e) /\
          m_iterate k mt' m' f x =
            (let* res := decode_each mt' x xs in
             match e with EDone => Ok res | EBeyond => PastLen | EFault => Panic | ELoops => OutOfFuel end)
      end).
  { intros l [_ Hpos] f mt' x k Hf Hk. specialize (Hpos f ltac:(fold n; lia)). assert (Hr : in_range (moff m') f) by (unfold in_range; fold n in Hlo; lia).
    unfold m_iterate, m_Iter, GetRepeatedNonPacked.
    destruct (recorded (reps mt) f l None) as [p|].
    - assert (Ho : ofun (moff m') f = Some p) by (unfold ofun; rewrite Hpos; reflexivity).
      pose proof (Hbd _ _ Ho) as Hp. pose proof (ofun_pos _ _ _ Hwf Hr Ho) as Hp1. rewrite (with_offset_some _ _ _ _ _ Hwf Hr Ho), Hbuf.
      rewrite (sl_at bs) by lia. cbn [rbind].
      pose proof (at_bytes bs p Hb) as Hba. assert (Hla : (length (at_pos bs p) <= length bs)%nat) by (rewrite skipn_length; lia).
      destruct (delivers_total f ltac:(lia) (S (length (at_pos bs p))) (at_pos bs p) ltac:(lia) Hba ltac:(lia)) as (xs & e & Hx & Hlen).
      exists xs, e. split; [exact Hx|]. split; [intros xs' e' H'; eapply delivers_det; [exact Hx|exact Hba|lia|exact H']|].
      rewrite (delivers_iterate _ _ _ _ Hx Hba) by lia. reflexivity.
    - rewrite with_offset_none; [|exact Hwf|exact Hr|unfold ofun; rewrite Hpos; reflexivity]. cbn [rbind]. destruct k; [lia|reflexivity]. }
  destruct (scan_total mt m bs Ht Hb Hl) as [(l & m2 & Hw & H & Hp)|[(l & j & l2 & m2 & Hw & Hj & H & Hp)|[(l & j & Hw & Hf & H)|(x & l1 & l2 & H1 & H2 & H3 & H & _)]]];
    rewrite He in H; try discriminate; injection H as -> ->.
  - exists l. split; [exact Hw|]. apply HG, Hp.
  - exists (l ++ l2). split; [exists l, j, l2; auto|]. apply HG, Hp.
Qed.

(** The accessor of a sub-message: it decodes what the bytes accessor obtains. *)
Theorem C71_message mt m bs err m' :
  of_type mt m -> Forall is_byte bs -> Z.of_nat (length bs) < 2 ^ 62 -> m_Decode mt m bs = Ok (err, m') ->
  let n := Z.of_nat (alen mt) in
  exists l,
    (match err with
     | None => walk n bs 0 l (Z.of_nat (length bs))
     | Some _ => exists l1 j l2, l = l1 ++ l2 /\ walk n bs 0 l1 j /\ ends_early n bs j l2
     end) /\
    forall f mt' x, 0 <= f < n ->
      match recorded (reps mt) f l None with
      | None => m_Message mt' m' f x = Ok (false, None, x)
      | Some p => exists g, obtains PBytes bs p g /\
          m_Message mt' m' f x =
            match g with
            | Value (VBytes (Some sub)) => let* (suberr, x') := m_Decode mt' x sub in Ok (true, suberr, x')
            | Beyond => PastLen
            | _ => Panic
            end
      end.
Proof.
  intros Ht Hb Hl He n. destruct (C67_accessors mt m bs err m' Ht Hb Hl He) as (l & Hw & HG). exists l. split; [exact Hw|].
  intros f mt' x Hf. specialize (HG f PBytes Hf). unfold m_Message.
  destruct (recorded (reps mt) f l None) as [p|].
  - destruct HG as (g & Hg & HG). exists g. split; [exact Hg|]. cbn [m_get] in HG.
    destruct Hg; try discriminate; cbn [value_of] in HG |- *;
      destruct (GetBytes (mbuf m') (moff m') f) as [o| | |]; cbn [rbind] in *; try discriminate; try reflexivity.
    injection HG as ->. reflexivity.
  - cbn [m_get default_of] in HG. destruct (GetBytes (mbuf m') (moff m') f) as [o| | |]; cbn [rbind] in *; try discriminate.
    injection HG as ->. reflexivity.
Qed.

(** Cases: two elements with another field between them; a message cut within a
    varint (the search never ends); an element that claims to be longer than the
    message; a length of 2^64-1; a group; and a field whose record has another wire
    type, which Decode accepts and the iterator reads as an element. *)
Definition two_bs : list Z := [2; 65; 66; 16; 7; 10; 1; 67].
Definition mixed_bs : list Z := [8; 3; 18; 1; 65].

Lemma va_small x r : 0 <= x < 128 -> varint_at (x :: r) x 1.
Proof. intros H. left. apply read_small, H. Qed.

Lemma te_small b i tag r : 0 <= i < Z.of_nat (length b) -> at_pos b i = tag :: r -> 0 <= tag < 128 -> tag_or_end_at b i tag (i + 1).
Proof. intros Hi E Ht. split; [exact Hi|]. exists 1. rewrite E. split; [apply va_small, Ht|reflexivity]. Qed.

Example C71_case :
  Forall is_byte two_bs /\ delivers 1 two_bs [[65; 66]; [67]] EDone /\
  next 1 [1; 65; 128] NLoops /\ next 1 [5; 65] NBeyond /\
  next 1 [255; 255; 255; 255; 255; 255; 255; 255; 255; 1] NFault /\
  next 1 [0; 19; 1] NFault /\
  (exists m', m_Decode (mkMtype 3 [1]) (msg_zero (mkMtype 3 [1])) mixed_bs = Ok (None, m') /\
     walk 3 mixed_bs 0 [(1, 1); (2, 3)] (Z.of_nat (length mixed_bs)) /\
     recorded [1] 1 [(1, 1); (2, 3)] None = Some 1 /\ delivers 1 (at_pos mixed_bs 1) [[18; 1; 65]] EDone).
Proof.
  assert (Hskip : skips 1 two_bs 3 5).
  { exists 16, 4, 1. split_and!; [apply (te_small _ 3 16 [7; 10; 1; 67]); [cbn; lia|reflexivity|lia]|lia|discriminate| |reflexivity].
    left. apply (moves_varint _ 7 1). apply read_small. lia. }
  split; [unfold two_bs; repeat constructor; unfold is_byte; lia|].
  split. { eapply delivers_more.
    - apply (next_more 1 two_bs [65; 66] 3 1 5 6).
      + apply (element_is two_bs 2 1 3); [apply va_small; lia|reflexivity|lia|cbn; lia].
      + econstructor; [exact Hskip|constructor].
      + exists 10. split_and!; [apply (te_small _ 5 10 [1; 67]); [cbn; lia|reflexivity|lia]|lia|reflexivity].
    - change (at_pos two_bs 6) with [1; 67]. apply delivers_last. apply (next_last 1 _ [67] 2 0 2); [|apply skip_none|unfold finds_none; cbn; lia].
      apply (element_is [1; 67] 1 1 2); [apply va_small; lia|reflexivity|lia|cbn; lia]. }
  split. { apply (next_loops 1 _ [65] 2 0 2 0).
    - apply (element_is [1; 65; 128] 1 1 2); [apply va_small; lia|reflexivity|lia|cbn; lia].
    - constructor.
    - econstructor; [|constructor]. exists 0, 2, 0. split_and!; [|lia|discriminate| |reflexivity].
      + split; [cbn; lia|]. exists 0. split; [|reflexivity]. right. split_and!; [|reflexivity|reflexivity]. repeat constructor; lia.
      + right. split_and!; [left; reflexivity| |reflexivity]. repeat constructor; lia. }
  split. { apply next_beyond. exists 5, 1, 6. split_and!; [apply va_small; lia|reflexivity|lia|lia|cbn; lia]. }
  split. { apply next_faulty. exists (2 ^ 64 - 1), 10. split; [|right; reflexivity]. left.
    apply (reads_fits (2 ^ 64 - 1) [255; 255; 255; 255; 255; 255; 255; 255; 255; 1] []).
    exists [255; 255; 255; 255; 255; 255; 255; 255; 255], 1. split_and!; try reflexivity; try lia; repeat constructor; lia. }
  split. { apply (next_fails 1 _ [] 1 0 1); [apply (element_is [0; 19; 1] 0 1 1); [apply va_small; lia|reflexivity|lia|cbn; lia]|apply skip_none|].
    apply (search_type _ _ _ 19 2); [apply (te_small _ 1 19 [1]); [cbn; lia|reflexivity|lia]|discriminate..]. }
  eexists. split; [vm_compute; reflexivity|]. split; [|split; [reflexivity|]].
  - assert (Ht : forall i tag p, 0 <= i < 5 -> reads_varint (at_pos mixed_bs i) tag 1 -> p = i + 1 -> p < 5 -> tag_at mixed_bs i tag p)
      by (intros; split; [cbn; lia|exists 1; auto]).
    apply (walk_cons _ _ 0 1 1 2); [|lia|apply (walk_cons _ _ 2 2 3 5); [|lia|constructor]].
    + exists 8, 1. split_and!; [apply Ht; try lia; apply read_small; lia|lia|reflexivity| |discriminate|reflexivity].
      apply (moves_varint _ 3 1). apply read_small. lia.
    + exists 18, 2. split_and!; [apply Ht; try lia; apply read_small; lia|lia|reflexivity| |discriminate|reflexivity].
      apply (moves_bytes _ 1 1). apply read_small. lia.
  - change (at_pos mixed_bs 1) with [3; 18; 1; 65]. apply delivers_last. apply (next_last 1 _ [18; 1; 65] 4 0 4); [|apply skip_none|unfold finds_none; cbn; lia].
    apply (element_is [3; 18; 1; 65] 3 1 4); [apply va_small; lia|reflexivity|lia|cbn; lia].
Qed.

Print Assumptions C71_find_next.
Print Assumptions C71_progress.
Print Assumptions C71_iterate.
Print Assumptions C71_message.

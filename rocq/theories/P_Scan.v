(** * Property C67: Decode and the accessors on every byte string whatsoever *)
From Verif Require Import Api Spec SpecScan Demo.
From Verif Require Import VarintFacts OffsetsFacts RecFacts DecodeFacts GetFacts Fuel Core Core5 ScanFacts.

(** What Decode does on any byte string, exactly.  It returns nil iff the walk
    from the first byte arrives at the end; io.ErrUnexpectedEOF iff the walk
    reaches a place where the input ends too early; it panics iff the walk
    fails; and it never returns iff the walk comes back to a place where it has
    been.  No condition on the bytes. *)
Theorem C67_decode_outcomes mt m bs :
  of_type mt m -> Forall is_byte bs -> Z.of_nat (length bs) < 2 ^ 62 ->
  let n := Z.of_nat (alen mt) in
  ((exists m', m_Decode mt m bs = Ok (None, m')) <-> exists l, walk n bs 0 l (Z.of_nat (length bs))) /\
  ((exists m', m_Decode mt m bs = Ok (Some ErrUnexpectedEOF, m')) <->
     exists l j l2, walk n bs 0 l j /\ ends_early n bs j l2) /\
  (m_Decode mt m bs = Panic <-> exists l j, walk n bs 0 l j /\ fails n bs j) /\
  ((forall fuel, Decode fuel bs (moff m) (reps mt) = OutOfFuel) <->
     exists x l1 l2, walk n bs 0 l1 x /\ walk n bs x l2 x /\ l2 <> []).
Proof.
  intros Ht Hb Hl n.
  assert (HA : forall l, walk n bs 0 l (Z.of_nat (length bs)) -> exists m', m_Decode mt m bs = Ok (None, m')).
  { intros l Hw. destruct (scan_accepts mt m bs Ht Hb Hl l Hw) as (m' & He & _). eauto. }
  assert (HE : forall l j l2, walk n bs 0 l j -> ends_early n bs j l2 -> exists m', m_Decode mt m bs = Ok (Some ErrUnexpectedEOF, m')).
  { intros l j l2 Hw He. destruct (scan_early mt m bs Ht Hb Hl l j l2 Hw He) as (m' & Hd & _). eauto. }
  assert (HF := scan_fails mt m bs Ht Hb Hl). assert (HD := scan_diverges mt m bs Ht Hb Hl).
  assert (HD2 : (forall fuel, Decode fuel bs (moff m) (reps mt) = OutOfFuel) -> m_Decode mt m bs = OutOfFuel).
  { intros H. unfold m_Decode. rewrite H. reflexivity. }
  split_and!; split.
  - intros [m' He]. destruct (scan_total mt m bs Ht Hb Hl) as [(l & m2 & Hw & _)|[(l & j & l2 & m2 & _ & _ & H & _)|[(l & j & _ & _ & H)|(x & l1 & l2 & _ & _ & _ & H & _)]]];
      [exists l; exact Hw|congruence..].
  - intros [l Hw]. eapply HA, Hw.
  - intros [m' He]. destruct (scan_total mt m bs Ht Hb Hl) as [(l & m2 & _ & H & _)|[(l & j & l2 & m2 & Hw & Hj & H & _)|[(l & j & _ & _ & H)|(x & l1 & l2 & _ & _ & _ & H & _)]]];
      [congruence|exists l, j, l2; auto|congruence..].
  - intros (l & j & l2 & Hw & He). eapply HE; eassumption.
  - intros He. destruct (scan_total mt m bs Ht Hb Hl) as [(l & m2 & _ & H & _)|[(l & j & l2 & m2 & Hw & Hj & H & _)|[(l & j & Hw & Hf & H)|(x & l1 & l2 & _ & _ & _ & H & _)]]];
      [congruence|congruence|exists l, j; auto|congruence].
  - intros (l & j & Hw & Hf). eapply HF; eassumption.
  - intros He. apply HD2 in He. destruct (scan_total mt m bs Ht Hb Hl) as [(l & m2 & _ & H & _)|[(l & j & l2 & m2 & Hw & Hj & H & _)|[(l & j & Hw & Hf & H)|(x & l1 & l2 & H1 & H2 & H3 & H & _)]]];
      [congruence|congruence|congruence|exists x, l1, l2; auto].
  - intros (x & l1 & l2 & H1 & H2 & H3). eapply HD; eassumption.
Qed.

(** If Decode returns at all, it does so within [len + 2] iterations. *)
Theorem C67_soon_or_never mt m bs :
  (exists r, r <> OutOfFuel /\ forall fuel, (length bs + 2 <= fuel)%nat -> Decode fuel bs (moff m) (reps mt) = r) \/
  (forall fuel, Decode fuel bs (moff m) (reps mt) = OutOfFuel).
Proof.
  destruct (Decode (fuel_of bs) bs (moff m) (reps mt)) as [a| | |] eqn:E; [left..|right].
  1-3: eexists; split; [|intros fuel Hf; rewrite (decode_fuel_enough fuel) by (unfold fuel_of; lia); exact E]; discriminate.
  intros fuel. destruct (decide (fuel_of bs <= fuel)%nat) as [Hf|Hf]; [rewrite decode_fuel_enough by exact Hf; exact E|].
  destruct (Decode fuel bs (moff m) (reps mt)) as [a| | |] eqn:E2; [| | |reflexivity]; exfalso; unfold Decode in *;
    rewrite (decode_mono _ _ fuel (fuel_of bs)) in E by (try lia; rewrite E2; discriminate); congruence.
Qed.

(** What the accessors return after Decode returned, with or without an error,
    on any byte string: the value at the position of the field's last (if
    repeated: first) record on the walk. *)
Theorem C67_accessors mt m bs err m' :
  of_type mt m -> Forall is_byte bs -> Z.of_nat (length bs) < 2 ^ 62 -> m_Decode mt m bs = Ok (err, m') ->
  let n := Z.of_nat (alen mt) in
  exists l,
    (match err with
     | None => walk n bs 0 l (Z.of_nat (length bs))
     | Some _ => exists l1 j l2, l = l1 ++ l2 /\ walk n bs 0 l1 j /\ ends_early n bs j l2
     end) /\
    forall f T, 0 <= f < n ->
      match recorded (reps mt) f l None with
      | None => m_get T m' f = Ok (default_of T)
      | Some p => exists g, obtains T bs p g /\
          m_get T m' f = match g with Value v => Ok v | Beyond => PastLen | Fault => Panic end
      end.
Proof.
  intros Ht Hb Hl He n.
  assert (Hl63 : zlen bs < 2 ^ 63) by (unfold zlen; revert Hl; change (2 ^ 62) with 4611686018427387904; pows; lia).
  destruct (m_Decode_bounds _ _ _ _ _ Ht Hl63 He) as (Hbuf & Hwf & Hlo & Hbd).
  assert (HG : forall l, positions mt bs l m' -> forall f T, 0 <= f < n ->
      match recorded (reps mt) f l None with
      | None => m_get T m' f = Ok (default_of T)
      | Some p => exists g, obtains T bs p g /\
          m_get T m' f = match g with Value v => Ok v | Beyond => PastLen | Fault => Panic end
      end).
  { intros l [_ Hpos] f T Hf. specialize (Hpos f Hf). assert (Hr : in_range (moff m') f) by (unfold in_range; lia).
    destruct (recorded (reps mt) f l None) as [p|].
    - assert (Ho : ofun (moff m') f = Some p) by (unfold ofun; rewrite Hpos; reflexivity).
      pose proof (Hbd _ _ Ho). pose proof (ofun_pos _ _ _ Hwf Hr Ho). rewrite <- Hbuf.
      destruct (get_obtains T m' f p) as (g & Hg & Hm); rewrite ?Hbuf; try assumption; [lia|]. exists g. rewrite Hbuf in *. auto.
    - apply m_get_none; [exact Hwf|exact Hr|]. unfold ofun. rewrite Hpos. reflexivity. }
  destruct (scan_total mt m bs Ht Hb Hl) as [(l & m2 & Hw & H & Hp)|[(l & j & l2 & m2 & Hw & Hj & H & Hp)|[(l & j & Hw & Hf & H)|(x & l1 & l2 & H1 & H2 & H3 & H & _)]]];
    rewrite He in H; try discriminate; injection H as -> ->.
  - exists l. split; [exact Hw|]. apply HG, Hp.
  - exists (l ++ l2). split; [exists l, j, l2; auto|]. apply HG, Hp.
Qed.

(** Cases: the buffer of C07's counterexample is accepted after a walk that moves
    backward once; on the 11 bytes of C09's counterexample the walk returns to
    where it was. *)
Definition back_bs : list Z :=
  [10; 20] ++ [0; 0; 0; 0; 0; 0; 0; 0; 0; 0; 0; 18; 17; 0; 0; 0; 0; 0; 0; 0] ++ [128; 128; 128; 128; 128; 128; 128; 128; 128; 2].

Lemma back_reads : reads_varint (skipn 22 back_bs) 0 (-10).
Proof. apply (reads_overlong [128; 128; 128; 128; 128; 128; 128; 128; 128] 2 []); [repeat constructor; lia|lia|right; cbn; lia]. Qed.

Lemma read_small b r : 0 <= b < 128 -> reads_varint (b :: r) b 1.
Proof. intros Hb. exact (reads_fits b [b] r (proj1 (small_varint b Hb))). Qed.

Definition loop_bs : list Z := [10; 245; 255; 255; 255; 255; 255; 255; 255; 255; 1].

Example C67_case :
  of_type (mkMtype 3 []) (msg_zero (mkMtype 3 [])) /\ Forall is_byte back_bs /\
  walk 3 back_bs 0 [(1, 1); (0, 12); (2, 14)] (Z.of_nat (length back_bs)) /\
  Forall is_byte loop_bs /\ walk 3 loop_bs 0 [(1, 1)] 0 /\
  obtains PBytes back_bs 14 (Value (VBytes (Some ([0; 0; 0; 0; 0; 0; 0] ++ skipn 22 back_bs)))) /\
  ends_early 3 [8; 1; 18; 3; 65] 7 [] /\ fails 3 [24; 1] 0.
Proof.
  assert (Ht : forall bs i tag p n, 0 <= i < Z.of_nat (length bs) -> reads_varint (at_pos bs i) tag n -> p = i + n ->
    p < Z.of_nat (length bs) -> tag_at bs i tag p) by (intros; split; [assumption|eauto]).
  split_and!.
  - reflexivity.
  - unfold back_bs. repeat constructor; unfold is_byte; lia.
  - apply (walk_cons _ _ 0 1 1 22); [|lia|apply (walk_cons _ _ 22 0 12 13); [|lia|apply (walk_cons _ _ 13 2 14 32); [|lia|constructor]]].
    + exists 10, 21. split_and!; [apply (Ht _ _ _ _ 1); [cbn; lia|apply read_small; lia|reflexivity|cbn; lia]|lia|reflexivity| |discriminate|reflexivity].
      apply (moves_bytes _ 20 1). apply read_small. lia.
    + exists 0, 1. split_and!; [apply (Ht _ _ _ _ (-10)); [cbn; lia|exact back_reads|reflexivity|cbn; lia]|lia|reflexivity| |discriminate|reflexivity].
      apply (moves_varint _ 0 1). apply read_small. lia.
    + exists 18, 18. split_and!; [apply (Ht _ _ _ _ 1); [cbn; lia|apply read_small; lia|reflexivity|cbn; lia]|lia|reflexivity| |discriminate|reflexivity].
      apply (moves_bytes _ 17 1). apply read_small. lia.
  - unfold loop_bs. repeat constructor; unfold is_byte; lia.
  - apply (walk_cons _ _ 0 1 1 0); [|lia|constructor].
    exists 10, (10 + (2 ^ 64 - 11)). split_and!; [apply (Ht _ _ _ _ 1); [cbn; lia|apply read_small; lia|reflexivity|cbn; lia]|lia|reflexivity| |discriminate|reflexivity].
    apply (moves_bytes _ (2 ^ 64 - 11) 10).
    apply (reads_fits (2 ^ 64 - 11) [245; 255; 255; 255; 255; 255; 255; 255; 255; 1] []).
    exists [245; 255; 255; 255; 255; 255; 255; 255; 255], 1. split_and!; try reflexivity; try lia; repeat constructor; lia.
  - refine (obtains_bytes PBytes back_bs 14 17 1 15 32 eq_refl _ eq_refl eq_refl _); [left; apply read_small; lia|cbn; lia].
  - apply early_beyond. cbn. lia.
  - apply (fails_field _ _ _ 24 1); [apply (Ht _ _ _ _ 1); [cbn; lia|apply read_small; lia|reflexivity|cbn; lia]|discriminate].
Qed.

Print Assumptions C67_decode_outcomes.
Print Assumptions C67_soon_or_never.
Print Assumptions C67_accessors.

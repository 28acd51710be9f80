(** * C82: the cost of hostile bytes

    C79 bounds the cost of Decode and Next on well-formed bytes by a constant for each
    record.  Here the bytes are any bytes: cut short, corrupted, or made to cost as much
    as possible.  Whenever Decode or Next come back, by returning or by panicking, they
    have made at most about [2 * length ^ 2] accesses, since each position of the buffer is
    visited at most once; a getter makes at most [length + 14].  (They may not come back at all, C09; [OutOfFuel] is
    that outcome.)  And that is the right order: there are buffers of every size which Decode
    accepts, with no error, after at least [length ^ 2 / 100] accesses; also Next. *)
From Verif Require Import GoBase Spec VarintFacts OffsetsFacts RecFacts DecodeFacts SetFacts Runtime Gen GenApi Heap HeapFacts Api ApiInv Demo.
From Verif Require Import Access AccessFacts AccessApi SpecGo SpecSpend SpendFacts SpendGet SpendHostile SpendWorst SpendTotal SpendWorstRun P_Spend.
From Coq Require Import ZifyBool.

(** Any bytes, into any struct in any memory. *)
Theorem C82_decode G o s bs more n reps k G' r : bytes_at G s bs ->
  spends G (c_decode more n o reps s) k G' r -> r <> OutOfFuel ->
  (k <= n + 4 + (length bs + 1) * (2 * length bs + 10))%nat.
Proof. intros Hb Hs Hr. pose proof (cwp_decode_any more n o s reps bs G Hb _ _ _ Hs Hr). lia. Qed.

(** Any iterator. *)
Theorem C82_next G it bs f more k G' r : bytes_at G it bs ->
  spends G (c_find more it f) k G' r -> r <> OutOfFuel ->
  (k <= length bs + (length bs + 1) * (2 * length bs))%nat /\ G' = G.
Proof. intros Hb Hs Hr. destruct (cwp_find_any more it f bs G Hb _ _ _ Hs) as [-> H]. specialize (H Hr). split; [lia|reflexivity]. Qed.

(** Any getter, whatever positions the struct holds; it writes nothing. *)
Theorem C82_getter G T n o f s bs k G' r : G !! Buf o = Some (Hdr s) -> bytes_at G s bs ->
  spends G (c_get T n o f) k G' r -> (k <= 14 + length bs)%nat /\ G' = G.
Proof. intros Hb Hs Hk. destruct (cwp_getter_any T n o f s bs G Hb Hs _ _ _ Hk) as [-> H]. auto. Qed.

Lemma stores_ready G o m n : stores G o m -> zlen (oa (moff m)) = Z.of_nat n -> ready G n o.
Proof.
  intros ((s & H1 & _) & H2 & H3) Hn. split; [eauto|]. split.
  - intros i Hi. destruct (oa (moff m) !! i) as [x|] eqn:E; [eauto|]. apply lookup_ge_None in E. unfold zlen in Hn. lia.
  - destruct (om (moff m)) as [t|].
    + destruct H3 as (l & H3 & H4). exists (Some l). split; [exact H3|]. intros l' E. injection E as <-. eauto.
    + exists None. split; [exact H3|]. discriminate.
Qed.

(** Quadratic cost happens, whatever the message type and whatever the message held before. *)
Theorem C82_decode_quadratic N : Z.of_nat N < 2 ^ 60 -> exists bs, (N <= length bs <= N + 48)%nat /\ Forall is_byte bs /\
  forall G o m n s more reps, stores G o m -> zlen (oa (moff m)) = Z.of_nat n -> (1 <= n)%nat -> bytes_at G s bs ->
    (exists k G' r, spends G (c_decode more n o reps s) k G' r) /\
    forall k G' r, spends G (c_decode more n o reps s) k G' r -> r = Ok None /\ (length bs * length bs <= 100 * k)%nat.
Proof.
  intros HN. assert (E60 : 2 ^ 60 + 100 < 2 ^ 62) by reflexivity. assert (exists K, (N <= 24 * K + 15 <= N + 47 /\ 1 <= K)%nat) as (K & HK & HK1).
  { exists (N / 24 + 1)%nat. pose proof (Nat.div_mod N 24 ltac:(lia)). pose proof (Nat.mod_upper_bound N 24 ltac:(lia)). lia. }
  exists (worst K). pose proof (worst_length K) as Hl. assert (Hz : zlen (worst K) < 2 ^ 62) by (unfold zlen; rewrite Hl; lia).
  split; [lia|]. split; [apply worst_bytes; lia|]. intros G o m n s more reps Hst Hn H1 Hb.
  pose proof (worst_decode more n o s reps K G Hz H1 (stores_ready G o m n Hst Hn) Hb) as W. split; [exact (twp_ex _ _ _ W)|].
  intros k G' r Hs. destruct (twp_all _ _ _ W _ _ _ Hs) as [-> Hk]. split; [reflexivity|]. rewrite Hl. nia.
Qed.
Theorem C82_next_quadratic N : Z.of_nat N < 2 ^ 60 -> exists bs, (N <= length bs <= N + 48)%nat /\ Forall is_byte bs /\
  forall G s f more, bytes_at G (Some s) bs -> 0 <= slen s <= scap s -> f <> 0 ->
    (exists k G' r, spends G (c_find more (Some s) f) k G' r) /\
    forall k G' r, spends G (c_find more (Some s) f) k G' r -> (exists msg, r = Ok (None, msg)) /\ (length bs * length bs <= 100 * k)%nat.
Proof.
  intros HN. assert (E60 : 2 ^ 60 + 100 < 2 ^ 62) by reflexivity. assert (exists K, (N <= 24 * K + 16 <= N + 48 /\ 1 <= K)%nat) as (K & HK & HK1).
  { exists (N / 24 + 1)%nat. pose proof (Nat.div_mod N 24 ltac:(lia)). pose proof (Nat.mod_upper_bound N 24 ltac:(lia)). lia. }
  exists (0 :: worst K). pose proof (worst_length K) as Hl. cbn [length]. assert (Hz : zlen (0 :: worst K) < 2 ^ 62) by (unfold zlen; cbn [length]; rewrite Hl; lia).
  split; [lia|]. split; [constructor; [unfold is_byte; lia|apply worst_bytes; lia]|]. intros G s f more Hb Hcap Hf.
  pose proof (worst_find more s f K G Hz Hf Hb Hcap) as W. split; [exact (twp_ex _ _ _ W)|].
  intros k G' r Hs. destruct (twp_all _ _ _ W _ _ _ Hs) as [Hr Hk]. split; [exact Hr|]. rewrite Hl. nia.
Qed.

(** ** Concrete cases *)
Definition counted {A} (G : heap) (p : prog A) : option (nat * res A) := match count demo_al G p with Some (k, (r, _)) => Some (k, r) | None => None end.
Definition all_of (bs : list Z) : option slice := Some (mkSl 0 0 (zlen bs) (zlen bs)).
(** 975 bytes, accepted after more than ten thousand accesses, over 10 for each byte (well-formed
    ones: at most 6); a message cut short, one with a wrong wire type, and one on which it never
    comes back. *)
Example C82_case :
  (exists k, counted (demo_in (worst 40)) (c_decode 0 8 0 [5] (all_of (worst 40))) = Some (k, Ok None) /\ 10000 < Z.of_nat k) /\ length (worst 40) = 975%nat /\
  counted (demo_in [8; 1; 18; 128]) (c_decode 0 8 0 [] (all_of [8; 1; 18; 128])) = Some (18%nat, Ok (Some ErrUnexpectedEOF)) /\
  counted (demo_in [8; 1; 19; 1]) (c_decode 0 8 0 [] (all_of [8; 1; 19; 1])) = Some (17%nat, Panic) /\
  (exists k, counted (demo_in (0 :: worst 40)) (c_find 0 (all_of (0 :: worst 40)) 5) = Some (k, Ok (None, Some (mkSl 0 1 0 975))) /\ 10000 < Z.of_nat k) /\
  (* a varint that does not end for 20 bytes *)
  counted (<[Off 0 1 := Num 1]> (<[Buf 0 := Hdr (all_of (replicate 20 128 ++ [0]))]> (demo_in (replicate 20 128 ++ [0])))) (c_get PInt32 8 0 1) = Some (22%nat, Ok (HVal (VNum 0))).
Proof.
  split_and!; [eexists; split; [vm_compute; reflexivity|reflexivity]|vm_compute; reflexivity..| |vm_compute; reflexivity].
  eexists. split; [vm_compute; reflexivity|reflexivity].
Qed.

Print Assumptions C82_decode.
Print Assumptions C82_next.
Print Assumptions C82_getter.
Print Assumptions C82_decode_quadratic.
Print Assumptions C82_next_quadratic.

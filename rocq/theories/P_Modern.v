(** * C84: with Go 1.17 or later hostile bytes cost no more than a constant for each

    C82 shows that Decode and Next, built with the Go 1.12 of the repository's go.mod,
    can be made to cost the square of the input's length.  Everything there comes from
    Uvarint reading on to the end of a varint that does not end.  Since Go 1.17 Uvarint
    stops at the eleventh byte; with it Decode makes at most 32 accesses for each byte
    (plus one for each field of the message type), Next 22, and a getter 15 in all. *)
From Verif Require Import GoBase Spec VarintFacts OffsetsFacts RecFacts DecodeFacts SetFacts Runtime RuntimeGo Gen GenApi Heap HeapFacts Api ApiInv Demo.
From Verif Require Import Access AccessFacts AccessApi SpecGo SpecSpend SpendFacts SpendGet SpendHostile SpendWorst SpendTotal SpendWorstRun P_Spend P_Hostile SpendGo.
From Coq Require Import ZifyBool.

(** The two programs differ in nothing but Uvarint. *)
Theorem C84_same_programs :
  c_decode_u c_uvarint = c_decode /\ c_find_u c_uvarint = c_find /\ (forall T n o f, c_get_u c_uvarint T n o f = c_get T n o f).
Proof. split_and!; [exact c_decode_u_12|exact c_find_u_12|exact c_get_u_12]. Qed.

(** Uvarint of Go 1.17: what it returns, and that it reads at most eleven bytes. *)
Theorem C84_uvarint G s bs k G' r : bytes_at G s bs ->
  spends G (c_uvarint_117 s) k G' r -> (k <= 11)%nat /\ r = Ok (uvarint_117 bs) /\ G' = G.
Proof. intros Hb Hs. destruct (cwp_uvarint_117 G s bs Hb _ _ _ Hs) as (-> & -> & H). auto. Qed.

(** Any bytes, into any struct in any memory. *)
Theorem C84_decode G o s bs more n reps k G' r : bytes_at G s bs ->
  spends G (c_decode_u c_uvarint_117 more n o reps s) k G' r -> r <> OutOfFuel ->
  (k <= n + 4 + 32 * (length bs + 1))%nat.
Proof.
  intros Hb Hs Hr. pose proof (cwp_decode_u c_uvarint_117 uvarint_117 11 cwp_uvarint_117 more n o s reps bs G Hb _ _ _ Hs Hr). lia.
Qed.

(** Any iterator. *)
Theorem C84_next G it bs f more k G' r : bytes_at G it bs ->
  spends G (c_find_u c_uvarint_117 more it f) k G' r -> r <> OutOfFuel ->
  (k <= 11 + 22 * (length bs + 1))%nat /\ G' = G.
Proof.
  intros Hb Hs Hr. destruct (cwp_find_u c_uvarint_117 uvarint_117 11 cwp_uvarint_117 more it f bs G Hb _ _ _ Hs) as [-> H].
  specialize (H Hr). split; [lia|reflexivity].
Qed.

(** Any getter, whatever positions the struct holds; it writes nothing. *)
Theorem C84_getter G T n o f s bs k G' r : G !! Buf o = Some (Hdr s) -> bytes_at G s bs ->
  spends G (c_get_u c_uvarint_117 T n o f) k G' r -> (k <= 15)%nat /\ G' = G.
Proof.
  intros Hb Hs Hk. destruct (cwp_getter_u c_uvarint_117 uvarint_117 11 cwp_uvarint_117 T n o f s bs G Hb Hs ltac:(lia) _ _ _ Hk) as [-> H].
  split; [lia|reflexivity].
Qed.

(** ** Concrete cases *)
(** The buffer of C82_case, 975 bytes, which Go 1.12's Decode accepts after more than ten
    thousand accesses: Go 1.17's panics after 74.  Next on it; a getter on twenty bytes of an
    endless varint, 13 accesses and not 22; Uvarint itself on thirty, both releases. *)
Definition long (n : nat) : list Z := replicate n 128 ++ [0].
Example C84_case :
  (exists k, counted (demo_in (worst 40)) (c_decode 0 8 0 [5] (all_of (worst 40))) = Some (k, Ok None) /\ 10000 < Z.of_nat k) /\
  counted (demo_in (worst 40)) (c_decode_u c_uvarint_117 0 8 0 [5] (all_of (worst 40))) = Some (74%nat, Panic) /\
  counted (demo_in (0 :: worst 40)) (c_find_u c_uvarint_117 0 (all_of (0 :: worst 40)) 5) = Some (79%nat, Ok (None, Some (mkSl 0 1 0 975))) /\
  counted (<[Off 0 1 := Num 1]> (<[Buf 0 := Hdr (all_of (long 20))]> (demo_in (long 20)))) (c_get_u c_uvarint_117 PInt32 8 0 1) = Some (13%nat, Ok (HVal (VNum 0))) /\
  counted (demo_in (long 30)) (c_uvarint_117 (all_of (long 30))) = Some (11%nat, Ok (0, -11)) /\
  counted (demo_in (long 30)) (c_uvarint (all_of (long 30))) = Some (31%nat, Ok (0, -31)).
Proof.
  split_and!.
  - eexists. split; [vm_compute; reflexivity|reflexivity].
  - vm_compute. reflexivity.
  - vm_compute. reflexivity.
  - vm_compute. reflexivity.
  - vm_compute. reflexivity.
  - vm_compute. reflexivity.
Qed.

Print Assumptions C84_same_programs.
Print Assumptions C84_uvarint.
Print Assumptions C84_decode.
Print Assumptions C84_next.
Print Assumptions C84_getter.

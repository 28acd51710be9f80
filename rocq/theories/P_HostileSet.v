(** * C85: setters and appends on any struct cost linear

    C79 bounds a setter on structs that legal calls have built.  Here the struct is any:
    decoded from hostile bytes, left behind by a panic, or with arbitrary contents; also
    the arguments are any.  A setter may then move bytes the wrong way, take
    spare capacity for message, or panic, but its cost stays linear in the length of the
    message it began with (which it can at most double), the number of fields and the
    size of its argument; it has no loop that could run on.  *)
From Verif Require Import PanicState.
From Verif Require Import GoBase Spec VarintFacts OffsetsFacts RecFacts DecodeFacts SetFacts Runtime Gen GenApi Heap HeapFacts Api ApiInv PanicFacts Demo.
From Verif Require Import Access AccessFacts AccessApi SpecGo SpecSpend SpendFacts SpendGet SpendSet SpendMore SpendHostile SpendSetAny P_Spend P_Hostile.
From Coq Require Import ZifyBool.

(** Any memory in which the struct's slice header has a length that Go allows, and its
    overflow map, if any, has at most [e] entries. *)
Theorem C85_set G o s e grow T n f v k G' r : any_struct G o s e -> hlen s < 2 ^ 63 ->
  spends G (c_set grow T n o f v) k G' r ->
  Z.of_nat k <= 150 + 15 * hlen s + 2 * Z.of_nat n + 8 * Z.of_nat e + pval_size v.
Proof.
  intros Ha Hl Hs. assert (0 <= pval_size v) by (destruct v as [| | |[|]]; cbn; lia). pose proof Ha as (_ & Hs0 & _).
  refine (cwp_lift _ _ _ (fun k _ _ => Z.of_nat k <= 150 + 15 * hlen s + 2 * Z.of_nat n + 8 * Z.of_nat e + pval_size v) _ _ _ _ Hs).
  destruct (set_args T v) as [[[typ vl] x]| | |] eqn:E; [|lia..]. pose proof (set_args_len _ _ _ _ _ E) as [H1 H2]. pose proof (zlen_nonneg x).
  eapply cwp_mono; [apply (cwp_set_struct grow n o f typ G s e vl (Scratch x) Ha Hl); cbn; lia|]. cbv beta. cbn [src_cost]. intros. lia.
Qed.

(** SetMessage and the []byte setter, whose argument lies in memory. *)
Theorem C85_set_slice G o s e grow n f v k G' r : any_struct G o s e -> hlen s < 2 ^ 63 -> 0 <= hlen v ->
  spends G (c_set_view grow n o f v) k G' r ->
  Z.of_nat k <= 150 + 15 * hlen s + 2 * Z.of_nat n + 8 * Z.of_nat e + 2 * hlen v.
Proof.
  intros Ha Hl Hv Hs. pose proof Ha as (_ & Hs0 & _).
  refine (cwp_lift _ _ _ (fun k _ _ => Z.of_nat k <= 150 + 15 * hlen s + 2 * Z.of_nat n + 8 * Z.of_nat e + 2 * hlen v) _ _ _ _ Hs).
  destruct (put_uvarint _ _) as [vl| | |] eqn:E; [|lia..]. apply put_uvarint_len in E. unfold MaxVarintLen64 in E.
  eapply cwp_mono; [apply (cwp_set_struct grow n o f _ G s e vl (View v) Ha Hl); cbn; lia|]. cbv beta. cbn [src_cost]. unfold zlen. intros. lia.
Qed.

(** AppendTo. *)
Theorem C85_append G o s e grow n f v k G' r : any_struct G o s e -> 0 <= src_len v ->
  spends G (c_append_bytes grow n o f v) k G' r ->
  Z.of_nat k <= 120 + 6 * hlen s + src_cost v.
Proof.
  intros (Hb & Hs0 & _) Hv Hs. assert (Hc : 0 <= src_cost v) by (destruct v; cbn in *; unfold zlen; lia).
  refine (cwp_lift _ _ _ (fun k _ _ => Z.of_nat k <= 120 + 6 * hlen s + src_cost v) _ _ _ _ Hs).
  destruct (put_uvarint _ _) as [vl| | |] eqn:E; [|lia..]. apply put_uvarint_len in E. unfold MaxVarintLen64 in E.
  eapply cwp_mono; [apply (cwp_append_struct grow n o f _ G s vl v Hb Hs0 Hv)|]. cbv beta. unfold zlen. intros. lia.
Qed.

(** In the state a client has reached by any sequence of calls with any arguments,
    recovering from every panic: linear in the message and the number of fields. *)
Theorem C85_reachable mt m G o grow T f v k G' r : reachable mt m -> zlen (mbuf m) < 2 ^ 63 -> stores G o m ->
  spends G (c_set grow T (alen mt) o f v) k G' r ->
  Z.of_nat k <= 150 + 15 * Z.of_nat (length (m_Encode m)) + 10 * Z.of_nat (alen mt) + pval_size v.
Proof.
  intros Hr Hl HS Hs. destruct (reachable_owf mt m Hr) as [Hwf Hln]. pose proof HS as ((s & Hb & Hbs) & _ & HM).
  pose proof (bytes_len _ _ _ Hbs) as Hlen. pose proof (zlen_nonneg (mbuf m)).
  assert (Ha : any_struct G o s (alen mt)).
  { split; [exact Hb|]. split; [lia|]. destruct (om (moff m)) as [t|] eqn:Et.
    - destruct HM as (l & H1 & H2). exists (Some l). split; [exact H1|]. exists t. split; [exact H2|].
      pose proof (map_bounded _ _ Hwf Et). unfold zlen in Hln. lia.
    - exists None. auto. }
  pose proof (C85_set G o s (alen mt) grow T (alen mt) f v k G' r Ha ltac:(lia) Hs). unfold m_Encode. fold (zlen (mbuf m)). lia.
Qed.

(** ** Concrete cases *)
(** 71 bytes ending in a record of field 2 whose length prefix says 2^64 - 50.  Decode
    reports an error, having stored the position 61 of that prefix.  The setter of field 2
    then takes 39 bytes of spare capacity into the message; if there are none it
    panics. *)
Definition backwards : list Z := replicate 60 0 ++ [18] ++ [206; 255; 255; 255; 255; 255; 255; 255; 255; 1].
Definition after_backwards : msg := (call_st demo_mt (msg_zero demo_mt) (CDecode backwards)).2.
Definition left_behind (cap : Z) : heap :=
  <[Off 0 0 := Num 60]> (<[Off 0 2 := Num 61]> (<[Buf 0 := Hdr (Some (mkSl 0 0 71 cap))]> (demo_in (backwards ++ replicate (Z.to_nat (cap - 71)) 7)))).
Definition len_after {A} (G : heap) (p : prog A) : option (nat * bool * Z) :=
  match count demo_al G p with
  | Some (k, (r, G')) => Some (k, match r with Ok _ => true | _ => false end, match G' !! Buf 0 with Some (Hdr s) => hlen s | _ => -1 end)
  | None => None
  end.
Lemma left_behind_stores : stores (left_behind 71) 0 after_backwards.
Proof.
  split; [|split].
  - eexists. split; [vm_compute; reflexivity|]. split; [vm_compute; reflexivity|].
    intros j z E. cbn [sarr soff]. do 71 (destruct j as [|j]; [vm_compute in E; injection E as <-; vm_compute; reflexivity|]). vm_compute in E. discriminate E.
  - intros i x E. do 8 (destruct i as [|i]; [vm_compute in E; injection E as <-; vm_compute; reflexivity|]). vm_compute in E. discriminate E.
  - vm_compute. reflexivity.
Qed.
Example C85_case :
  reachable demo_mt after_backwards /\ stores (left_behind 71) 0 after_backwards /\
  (call_st demo_mt (msg_zero demo_mt) (CDecode backwards)).1 = Ok (AError (Some ErrUnexpectedEOF)) /\
  any_struct (left_behind 200) 0 (Some (mkSl 0 0 71 200)) 8 /\
  (exists k, len_after (left_behind 200) (c_set demo_grow PString 8 0 2 (VString [104])) = Some (k, true, 113) /\ Z.of_nat k = 60) /\
  (exists k, len_after (left_behind 71) (c_set demo_grow PString 8 0 2 (VString [104])) = Some (k, false, 71) /\ 30 < Z.of_nat k) /\
  (exists k, len_after (left_behind 200) (c_append_bytes demo_grow 8 0 5 (Scratch [1; 2])) = Some (k, true, 75) /\ Z.of_nat k < 30).
Proof.
  split; [apply reachable_call; [constructor|reflexivity]|]. split; [exact left_behind_stores|]. split; [vm_compute; reflexivity|].
  split; [split; [vm_compute; reflexivity|]; split; [cbn; lia|]; exists None; split; [vm_compute; reflexivity|exact I]|].
  split_and!; (eexists; split; [vm_compute; reflexivity|reflexivity]).
Qed.

Print Assumptions C85_set.
Print Assumptions C85_set_slice.
Print Assumptions C85_append.
Print Assumptions C85_reachable.

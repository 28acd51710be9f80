(** * Property C25 on whole histories *)
From Verif Require Import Runtime Spec SpecHist VarintFacts Api GenHist Demo P_Decode.

(** Any history of setters, appends, Resets and Decodes of well-formed messages:
    undeclared fields, repeated occurrences, fields of an unexpected wire type and
    tags with superfluous bytes are all allowed in what is decoded; only a setter
    is not applied to a field whose current value has one of the latter two.  No
    operation fails, the encoding is at every time (take [os] to be any prefix) a
    well-formed message holding exactly the values the history says, and every
    getter and iteration answers accordingly.
    Missing: setters on such fields, see C25_nonminimal_tag_refuted and
    C25_wire_type_refuted. *)
Theorem C25_history_partial mt os :
  Z.of_nat (alen mt) <= 2 ^ 29 -> glegal (Z.of_nat (alen mt)) (reps mt) (fun _ => []) os -> gops_size os < 2 ^ 63 ->
  exists m rs, grun mt (msg_zero mt) os = Ok m /\
    wire_tags rs (m_Encode m) /\ (forall f, occ_tags f rs = gspec os f) /\
    (forall f T, 0 <= f < Z.of_nat (alen mt) -> ~ In f (reps mt) ->
       (forall w b, last (gspec os f) = Some (w, b) -> conforms T w) ->
       m_get T m f = Ok (read_single T (map fst (gspec os f)))) /\
    (forall f, 0 <= f < Z.of_nat (alen mt) -> In f (reps mt) ->
       Forall (fun p => wire_type p.1 = 2) (gspec os f) ->
       forall mt' x n, (length (gspec os f) < n)%nat ->
         m_iterate n mt' m f x = decode_each mt' x (read_repeated (map fst (gspec os f)))).
Proof. exact (general_history mt os). Qed.

(** Field 6 first occurs with a superfluous tag byte and as a string although it
    is going to be set as an int32, but its last occurrence is fine; field 3 is
    undeclared, with a superfluous tag byte; field 1 is set, which moves it. *)
Definition hist_mt : mtype := mkMtype 8 [5].
Definition hist_bs : list Z := [178; 0] ++ [1; 120] ++ [152; 0] ++ [7] ++ [8] ++ [1] ++ [48] ++ [9] ++ [].
Definition hist_rs : list (record * bool) :=
  [((6, WBytes [120]), false); ((3, WVarint 7), false); ((1, WVarint 1), true); ((6, WVarint 9), true)].
Definition hist_os : list gop :=
  [GSet 2 PString (VString [1; 2]); GDecode hist_rs hist_bs; GSet 1 PInt64 (VNum 300); GAppend 5 [8; 1]; GSet 6 PInt32 (VNum (-1));
   GSet 2 PBytes (VBytes None)].

Lemma two_byte_tag f w b : 8 * f + wire_type w = b mod 128 -> 0 <= f -> 128 <= b < 256 -> tag_enc (f, w) [b; 0].
Proof.
  intros H Hf Hb. split; [exact Hf|]. exists [b], 0. split_and!; try reflexivity; try (repeat constructor; lia); try lia; try (cbn; lia).
  - cbn [app base128 fst snd]. rewrite H. change (0 mod 128) with 0. lia.
  - cbn [fst snd]. rewrite H. pose proof (Z.mod_pos_bound b 128). lia.
Qed.

Example C25_history_case :
  glegal (Z.of_nat (alen hist_mt)) (reps hist_mt) (fun _ => []) hist_os /\ gops_size hist_os < 2 ^ 63 /\
  (forall f, map fst (gspec hist_os f) =
     if f =? 1 then [WVarint 300] else if f =? 2 then [WBytes []] else if f =? 3 then [WVarint 7]
     else if f =? 5 then [WBytes [8; 1]] else if f =? 6 then [WBytes [120]; WVarint (2 ^ 64 - 1)] else []) /\
  match grun hist_mt (msg_zero hist_mt) hist_os with
  | Ok m => m_get PInt64 m 1 = Ok (VNum 300) /\ m_get PInt32 m 6 = Ok (VNum (-1)) /\ m_get PUint32 m 3 = Ok (VNum 7)
  | _ => False
  end.
Proof.
  split_and!.
  - cbn [glegal hist_os gok]. split_and!; try exact I; try (cbn; lia); try (cbn; tauto); try (cbn; intuition discriminate);
      try (cbn; split_and!; reflexivity); try (repeat constructor; unfold is_byte; lia).
    + apply (wire_tags_cons (6, WBytes [120]) false); [apply two_byte_tag; [reflexivity|lia|lia]|discriminate| |].
      { exists [1]. split_and!; [reflexivity|apply small_varint; cbn; lia|repeat constructor; unfold is_byte; lia]. }
      apply (wire_tags_cons (3, WVarint 7) false); [apply two_byte_tag; [reflexivity|lia|lia]|discriminate|apply small_varint; lia|].
      apply (wire_tags_cons (1, WVarint 1) true);
        [split; [cbn; lia|apply small_varint; cbn; lia]|intros _; split; [cbn; lia|apply small_varint; cbn; lia]|apply small_varint; lia|].
      apply (wire_tags_cons (6, WVarint 9) true);
        [split; [cbn; lia|apply small_varint; cbn; lia]|intros _; split; [cbn; lia|apply small_varint; cbn; lia]|apply small_varint; lia|].
      constructor.
  - vm_compute. reflexivity.
  - intros f. unfold gspec, hist_os. cbn [fold_left gstep occ_tags hist_rs flat_map fst snd].
    destruct (Z.eqb_spec f 2) as [->|]; [reflexivity|]. destruct (Z.eqb_spec f 6) as [->|]; [reflexivity|].
    destruct (Z.eqb_spec f 5) as [->|]; [reflexivity|]. destruct (Z.eqb_spec f 1) as [->|]; [reflexivity|].
    rewrite (proj2 (Z.eqb_neq 6 f)), (proj2 (Z.eqb_neq 1 f)) by lia. rewrite (Z.eqb_sym 3 f).
    destruct (f =? 3); reflexivity.
  - vm_compute. split_and!; reflexivity.
Qed.

Print Assumptions C25_history_partial.

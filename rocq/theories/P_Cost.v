(** * Properties C48-C50, C54: cost of Decode and of iteration, concatenation of
    messages, messages cut short *)
From Verif Require Import Api Demo SpecCost Cost Cut.
From Verif Require Import VarintFacts OffsetsFacts RecFacts DecodeFacts Core Core2 ApiInv ApiFacts.

(** ** C48 *)

(** The fuel of [Decode] counts iterations of its loop: on a message of [n]
    top-level records the loop body is entered exactly [n + 1] times (the last
    one sees the end of the buffer). *)
Theorem C48_decode_iterations mt m0 rs bs fuel :
  of_type mt m0 -> wire rs bs -> Forall (fun r => r.1 < Z.of_nat (alen mt)) rs -> Z.of_nat (length bs) < 2 ^ 63 ->
  (Decode fuel bs (moff m0) (reps mt) = OutOfFuel <-> (fuel < length rs + 1)%nat).
Proof. intros. rewrite (decode_iterations mt m0 rs bs) by assumption. lia. Qed.

(** Decode does not look into length-delimited fields: other bytes of the same
    length in one of them, well-formed or not, change neither the number of
    iterations nor the result. *)
Theorem C48_decode_lazy fuel o reps rs1 b1 f x y tb lb rs2 b2 :
  wire rs1 b1 -> tag_enc (f, WBytes x) tb -> is_varint (Z.of_nat (length x)) lb -> wire rs2 b2 ->
  length y = length x -> Forall is_byte x -> Forall is_byte y ->
  Z.of_nat (length (b1 ++ tb ++ lb ++ x ++ b2)) < 2 ^ 63 ->
  Decode fuel (b1 ++ tb ++ lb ++ x ++ b2) o reps = Decode fuel (b1 ++ tb ++ lb ++ y ++ b2) o reps.
Proof. apply decode_lazy. Qed.

Example C48_case :
  wire demo_rs demo_bs2 /\ length demo_rs = 5%nat /\ length demo_bs2 = 18%nat /\
  Decode 5 demo_bs2 (moff demo_m) (reps demo_mt) = OutOfFuel /\
  match Decode 6 demo_bs2 (moff demo_m) (reps demo_mt) with Ok (None, _) => True | _ => False end.
Proof. split; [exact demo_wire2|]. vm_compute. split_and!; reflexivity || exact I. Qed.

(** ** C49 *)

(** Iterating over a repeated field: the k-th call of Next inspects the records
    from its element to the next one and no others, so that a whole iteration
    inspects every record from the first element on exactly once. *)
Theorem C49_iteration_cost mt m0 rs bs f :
  of_type mt m0 -> wire rs bs -> Forall (fun r => r.1 < Z.of_nat (alen mt)) rs -> Z.of_nat (length bs) < 2 ^ 63 ->
  In f (reps mt) -> 0 <= f < Z.of_nat (alen mt) -> Forall (fun w => wire_type w = 2) (occ f rs) ->
  length (steps f rs) = length (occ f rs) /\ sum_list (steps f rs) = length (since f rs) /\
  exists m it, m_Decode mt m0 bs = Ok (None, m) /\ m_Iter m f = Ok it /\
    forall k n, steps f rs !! k = Some n ->
      exists itk, iter_after k it f = Ok itk /\ forall fuel, FindNextField fuel itk f = OutOfFuel <-> (fuel < n)%nat.
Proof.
  intros. split; [apply steps_length|]. split; [apply steps_sum|]. apply iteration_cost; assumption.
Qed.

Example C49_case :
  steps 5 demo_rs = [3%nat] /\ since 5 demo_rs = drop 2 demo_rs /\
  steps 5 [(5, WBytes []); (1, WVarint 0); (1, WVarint 0); (5, WBytes []); (5, WBytes []); (2, WBytes [])] = [3; 1; 2]%nat.
Proof. vm_compute. auto. Qed.

(** ** C50 *)

(** Decoding the concatenation of two messages: a field that occurs in the second
    one is read from there, any other from the first; the elements of a repeated
    field are those of the first followed by those of the second.  Missing:
    singular sub-messages that occur in both, see the refutation. *)
Theorem C50_concat_partial mt m0 rs1 b1 rs2 b2 :
  of_type mt m0 -> wire rs1 b1 -> wire rs2 b2 ->
  Forall (fun r => r.1 < Z.of_nat (alen mt)) (rs1 ++ rs2) -> Z.of_nat (length (b1 ++ b2)) < 2 ^ 63 ->
  exists m m1 m2,
    m_Decode mt m0 (b1 ++ b2) = Ok (None, m) /\ m_Decode mt m0 b1 = Ok (None, m1) /\ m_Decode mt m0 b2 = Ok (None, m2) /\
    (forall f T, 0 <= f < Z.of_nat (alen mt) -> ~ In f (reps mt) -> Forall (conforms T) (occ f (rs1 ++ rs2)) ->
       (occ f rs2 <> [] -> m_get T m f = m_get T m2 f) /\ (occ f rs2 = [] -> m_get T m f = m_get T m1 f)) /\
    (forall f, 0 <= f < Z.of_nat (alen mt) -> In f (reps mt) -> Forall (fun w => wire_type w = 2) (occ f (rs1 ++ rs2)) ->
       exists xs1 xs2, forall mt' x n, (length (xs1 ++ xs2) < n)%nat ->
         m_iterate n mt' m1 f x = decode_each mt' x xs1 /\ m_iterate n mt' m2 f x = decode_each mt' x xs2 /\
         m_iterate n mt' m f x = decode_each mt' x (xs1 ++ xs2)).
Proof.
  intros H0 H1 H2 Hr Hl.
  assert (H12 : wire (rs1 ++ rs2) (b1 ++ b2)).
  { clear -H1 H2. induction H1; [exact H2|]. cbn [app]. rewrite <- app_assoc. constructor; assumption. }
  pose proof Hr as Hr'. apply Forall_app in Hr' as [Hr1 Hr2].
  assert (Hl1 : Z.of_nat (length b1) < 2 ^ 63) by (rewrite app_length in Hl; lia).
  assert (Hl2 : Z.of_nat (length b2) < 2 ^ 63) by (rewrite app_length in Hl; lia).
  destruct (decode_accepts mt m0 _ _ H0 H12 Hr Hl) as (m & E & _ & Hg & Hi).
  destruct (decode_accepts mt m0 _ _ H0 H1 Hr1 Hl1) as (m1 & E1 & _ & Hg1 & Hi1).
  destruct (decode_accepts mt m0 _ _ H0 H2 Hr2 Hl2) as (m2 & E2 & _ & Hg2 & Hi2).
  exists m, m1, m2. split_and!; try assumption.
  - intros f T Hf Hn Hc. rewrite occ_app in Hc.
    assert (Hlast : forall l w, Forall (conforms T) l -> last l = Some w -> conforms T w).
    { intros l w Hfl Hw. rewrite Forall_forall in Hfl. apply Hfl. apply last_Some_elem_of, Hw. }
    pose proof Hc as Hc'. apply Forall_app in Hc' as [Hc1 Hc2].
    rewrite (Hg f T Hf Hn), occ_app by (rewrite occ_app; intros w; apply Hlast; exact Hc). split; intros Hocc.
    + rewrite (Hg2 f T Hf Hn) by (intros w; apply Hlast; exact Hc2). f_equal. unfold read_single.
      destruct (occ f rs2) as [|a l] using rev_ind; [contradiction|]. rewrite app_assoc, !last_snoc. reflexivity.
    + rewrite (Hg1 f T Hf Hn) by (intros w; apply Hlast; exact Hc1). rewrite Hocc, app_nil_r. reflexivity.
  - intros f Hf Hin Hc. exists (read_repeated (occ f rs1)), (read_repeated (occ f rs2)). intros mt' x n Hn.
    pose proof Hc as Hc'. rewrite occ_app in Hc'. apply Forall_app in Hc' as [Hc1 Hc2].
    unfold read_repeated in Hn. rewrite <- map_app, map_length, app_length in Hn.
    split_and!; [apply Hi1|apply Hi2|]; try assumption; try lia.
    rewrite Hi; try assumption; [|rewrite occ_app, app_length; lia].
    rewrite occ_app. unfold read_repeated. rewrite map_app. reflexivity.
Qed.

(** A field of either message, and one of both. *)
Example C50_case :
  wire [(1, WVarint 5); (5, WBytes []); (2, WBytes [97])] ([8; 5] ++ [42; 0] ++ [18; 1; 97] ++ []) /\
  wire [(5, WBytes [8; 1]); (1, WVarint 7)] ([42; 2; 8; 1] ++ [8; 7] ++ []) /\
  match m_Decode demo_mt demo_m ([8; 5; 42; 0; 18; 1; 97] ++ [42; 2; 8; 1; 8; 7]) with
  | Ok (None, m) => m_get PInt32 m 1 = Ok (VNum 7) /\ m_get PString m 2 = Ok (VString [97])
  | _ => False
  end.
Proof.
  split_and!.
  - repeat apply wire_cons; [| | |constructor].
    + exists [8], [5]. split_and!; [reflexivity|split; [cbn; lia|apply small_varint; cbn; lia]|apply small_varint; lia].
    + exists [42], [0]. split_and!; [reflexivity|split; [cbn; lia|apply small_varint; cbn; lia]|exists [0]; split_and!; [reflexivity|apply small_varint; cbn; lia|constructor]].
    + exists [18], [1; 97]. split_and!; [reflexivity|split; [cbn; lia|apply small_varint; cbn; lia]|exists [1]; split_and!; [reflexivity|apply small_varint; cbn; lia|repeat constructor; unfold is_byte; lia]].
  - repeat apply wire_cons; [| |constructor].
    + exists [42], [2; 8; 1]. split_and!; [reflexivity|split; [cbn; lia|apply small_varint; cbn; lia]|exists [2]; split_and!; [reflexivity|apply small_varint; cbn; lia|repeat constructor; unfold is_byte; lia]].
    + exists [8], [7]. split_and!; [reflexivity|split; [cbn; lia|apply small_varint; cbn; lia]|apply small_varint; lia].
  - vm_compute. auto.
Qed.

(** Protobuf prescribes that the sub-messages of the two are merged; here the
    first one is lost: field 1 of the sub-message is set in the first message,
    field 2 in the second. *)
Theorem C50_submessage_refuted :
  exists mt m0 mt' x p1 rs1 p2 rs2 m y,
    of_type mt m0 /\ of_type mt' x /\ wire rs1 p1 /\ wire rs2 p2 /\
    wire [(1, WBytes p1)] (10 :: Z.of_nat (length p1) :: p1) /\ wire [(1, WBytes p2)] (10 :: Z.of_nat (length p2) :: p2) /\
    m_Decode mt m0 ((10 :: Z.of_nat (length p1) :: p1) ++ (10 :: Z.of_nat (length p2) :: p2)) = Ok (None, m) /\
    m_Message mt' m 1 x = Ok (true, None, y) /\
    read_single PInt32 (occ 1 (rs1 ++ rs2)) = VNum 1 /\ m_get PInt32 y 1 = Ok (VNum 0).
Proof.
  exists (mkMtype 3 []), (msg_zero (mkMtype 3 [])), (mkMtype 3 []), (msg_zero (mkMtype 3 [])),
    ([8; 1] ++ []), [(1, WVarint 1)], ([16; 2] ++ []), [(2, WVarint 2)].
  eexists _, _. split_and!; try reflexivity.
  - constructor; [|constructor]. exists [8], [1]. split_and!; [reflexivity|split; [cbn; lia|apply small_varint; cbn; lia]|apply small_varint; lia].
  - constructor; [|constructor]. exists [16], [2]. split_and!; [reflexivity|split; [cbn; lia|apply small_varint; cbn; lia]|apply small_varint; lia].
  - change (10 :: Z.of_nat (length ([8; 1] ++ [])) :: [8; 1] ++ []) with ([10; 2; 8; 1] ++ []). constructor; [|constructor].
    exists [10], [2; 8; 1]. split_and!; [reflexivity|split; [cbn; lia|apply small_varint; cbn; lia]|exists [2]; split_and!; [reflexivity|apply small_varint; cbn; lia|repeat constructor; unfold is_byte; lia]].
  - change (10 :: Z.of_nat (length ([16; 2] ++ [])) :: [16; 2] ++ []) with ([10; 2; 16; 2] ++ []). constructor; [|constructor].
    exists [10], [2; 16; 2]. split_and!; [reflexivity|split; [cbn; lia|apply small_varint; cbn; lia]|exists [2]; split_and!; [reflexivity|apply small_varint; cbn; lia|repeat constructor; unfold is_byte; lia]].
Qed.

(** ** C54 *)

(** A message that ends inside a record, at the [k]-th byte of it: Decode reports
    it, and all getters of other fields read what the complete records say; so does
    the getter of the field of the cut record if it ends within its tag.  So do the
    iterators of other fields if the size of the cut record can still be read.
    Missing: the getter of the field that is cut (exactly: C28_cut_field) and
    iteration over a message that is cut within a varint, see below. *)
Theorem C54_complete_fields_partial mt m0 rs b0 f w tb pb k :
  of_type mt m0 -> wire rs b0 -> Forall (fun r => r.1 < Z.of_nat (alen mt)) rs ->
  tag_enc (f, w) tb -> payload_enc w pb -> f < Z.of_nat (alen mt) ->
  (0 < k < length (tb ++ pb))%nat -> Z.of_nat (length (b0 ++ tb ++ pb)) < 2 ^ 63 ->
  exists m, m_Decode mt m0 (b0 ++ take k (tb ++ pb)) = Ok (Some ErrUnexpectedEOF, m) /\
    (forall g T, 0 <= g < Z.of_nat (alen mt) -> ~ In g (reps mt) -> g <> f \/ (k <= length tb)%nat ->
       (forall w', last (occ g rs) = Some w' -> conforms T w') ->
       m_get T m g = Ok (read_single T (occ g rs))) /\
    (forall g, 0 <= g < Z.of_nat (alen mt) -> In g (reps mt) -> g <> f -> size_known w tb pb k ->
       Forall (fun w' => wire_type w' = 2) (occ g rs) ->
       forall mt' x n, (length (occ g rs) < n)%nat ->
         m_iterate n mt' m g x = decode_each mt' x (read_repeated (occ g rs))).
Proof. apply after_cut. Qed.

Example C54_case :
  tag_enc (2, WBytes [97; 98; 99]) [18] /\ payload_enc (WBytes [97; 98; 99]) [3; 97; 98; 99] /\
  size_known (WBytes [97; 98; 99]) [18] [3; 97; 98; 99] 3 /\
  match m_Decode demo_mt demo_m (demo_bs2 ++ take 3 ([18] ++ [3; 97; 98; 99])) with
  | Ok (Some ErrUnexpectedEOF, m) => m_get PInt32 m 1 = Ok (VNum 7)
  | _ => False
  end.
Proof.
  assert (Hb : Forall is_byte [97; 98; 99]) by (repeat constructor; unfold is_byte; lia).
  assert (Hv : is_varint (Z.of_nat (length [97; 98; 99])) [3]) by (apply small_varint; cbn; lia).
  split_and!.
  - split; [cbn; lia|apply small_varint; cbn; lia].
  - exists [3]. auto.
  - right. exists [97; 98; 99], [3]. split_and!; auto.
  - vm_compute. reflexivity.
Qed.

(** One complete element of the repeated field 1 followed by half a tag: Decode
    returns an error; a client that looks at the elements nevertheless calls Next,
    and Next never returns. *)
Theorem C54_iterator_hangs_refuted :
  exists mt m0 bs m it,
    of_type mt m0 /\ Forall is_byte bs /\ wire [(1, WBytes [])] (take 2 bs) /\ length bs = 3%nat /\
    m_Decode mt m0 bs = Ok (Some ErrUnexpectedEOF, m) /\ m_Iter m 1 = Ok (Some it) /\
    forall fuel, FindNextField fuel (Some it) 1 = OutOfFuel.
Proof.
  exists (mkMtype 3 [1]), (msg_zero (mkMtype 3 [1])), [10; 0; 128].
  eexists _, _. split_and!.
  - reflexivity.
  - repeat constructor; unfold is_byte; lia.
  - change (take 2 [10; 0; 128]) with ([10; 0] ++ []). constructor; [|constructor].
    exists [10], [0]. split_and!; [reflexivity|split; [cbn; lia|apply small_varint; cbn; lia]|exists [0]; split_and!; [reflexivity|apply small_varint; cbn; lia|constructor]].
  - reflexivity.
  - vm_compute; reflexivity.
  - vm_compute; reflexivity.
  - intros fuel. unfold FindNextField.
    change (uvarint [0; 128]) with (0, 1). cbv beta iota zeta.
    change (i64 (1 + i64 0)) with 1. change (slice_range [0; 128] 1 1) with (Ok ([] : list Z)). cbn [rbind].
    assert (E : find_loop fuel [0; 128] 1 1 = OutOfFuel); [|rewrite E; reflexivity].
    induction fuel as [|fuel IH]; [reflexivity|]. cbn [find_loop].
    change (1 <? zlen [0; 128]) with true. cbv iota. change (slice_from [0; 128] 1) with (Ok [128]). cbn [rbind].
    change (uvarint [128]) with (0, 0). cbv beta iota zeta. change (i64 (1 + 0)) with 1.
    change (i64 (Z.shiftr 0 3) =? 1) with false. cbv iota. change (slice_from [0; 128] 1) with (Ok [128]). cbn [rbind].
    change (fieldDataSize (Z.land 0 7) [128]) with (Ok 0). cbn [rbind]. change (i64 (1 + 0)) with 1. exact IH.
Qed.

Print Assumptions C48_decode_iterations.
Print Assumptions C48_decode_lazy.
Print Assumptions C49_iteration_cost.
Print Assumptions C50_concat_partial.
Print Assumptions C50_submessage_refuted.
Print Assumptions C54_complete_fields_partial.
Print Assumptions C54_iterator_hangs_refuted.

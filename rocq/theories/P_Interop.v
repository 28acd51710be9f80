(** * Property C66: whole trees, exchanged with another protobuf implementation *)
From Verif Require Import SpecTree Interop Demo.

(** Any encoding of a tree decodes, into any struct, and reading the struct with
    all accessors, recursively, shows the tree (TestRandDecode for all inputs). *)
Theorem C66_decode D id bs t x :
  env_ok D -> encodes D id bs t -> Z.of_nat (length bs) < 2 ^ 63 -> of_type (emt D id) x ->
  exists y, m_Decode (emt D id) x bs = Ok (None, y) /\ m_Encode y = bs /\ reads D id y t.
Proof.
  intros HD He Hl Hx. destruct (decode_tree D HD (length bs) id bs t x (le_n _) Hl He Hx) as (y & A & B & _ & C). eauto.
Qed.

(** After any sequence of mutations of a fresh struct (setters, SetX and AppendToX
    with sub-messages decoded from foreign bytes or built, Reset, Decode), in step
    with the same mutations of a tree: no call fails, the bytes are an encoding of
    the tree and the accessors show the tree (TestRandEncode and TestRandMutations
    for all inputs and after every step). *)
Theorem C66_mutations D id us :
  env_ok D -> Forall (mut_ok D id) us -> muts_size us < 2 ^ 63 ->
  exists m, zero_run D id (msg_zero (emt D id)) us = Ok m /\
    encodes D id (m_Encode m) (fold_left tree_step us TNil) /\ reads D id m (fold_left tree_step us TNil).
Proof. intros HD. exact (mutations D HD id us). Qed.

(** The bytes determine the tree, so the other side reads this tree and no
    other: two trees with one encoding read the same, at the root and, as the same
    holds of the sub-trees, everywhere. *)
Theorem C66_unambiguous D id bs t1 t2 :
  encodes D id bs t1 -> encodes D id bs t2 -> Z.of_nat (length bs) < 2 ^ 63 ->
  (forall f T, ekind D id f = Some (TScalar T) ->
     match scalar_at t1 f with Some v => stored v | None => default_of T end =
     match scalar_at t2 f with Some v => stored v | None => default_of T end) /\
  (forall f id', ekind D id f = Some (TMsg id') ->
     match sub_at t1 f, sub_at t2 f with
     | None, None => True
     | Some c1, Some c2 => exists p, encodes D id' p c1 /\ encodes D id' p c2 /\ (length p < length bs)%nat
     | _, _ => False
     end) /\
  (forall f id', ekind D id f = Some (TRep id') ->
     Forall2 (fun c1 c2 => exists p, encodes D id' p c1 /\ encodes D id' p c2 /\ (length p < length bs)%nat)
       (elems_at t1 f) (elems_at t2 f)).
Proof.
  intros [id0 rs bs0 t Hw _ (A1 & A2 & A3 & A4)] H2 Hl.
  inversion H2 as [id1 rs2 bs1 t' Hw2 _ (B1 & B2 & B3 & B4)]; subst.
  pose proof (Core4.wire_det _ _ _ Hl Hw Hw2) as <-. split_and!.
  - intros f T Hf. destruct (A1 f T Hf) as [_ <-]. destruct (B1 f T Hf) as [_ <-]. done.
  - intros f id' Hf. destruct (sub_at t f) as [c1|] eqn:E1, (sub_at t2 f) as [c2|] eqn:E2; [| | |done].
    + destruct (A3 f id' c1 Hf E1) as (p & Ep & Hp). destruct (B3 f id' c2 Hf E2) as (q & Eq & Hq).
      rewrite Ep in Eq. injection Eq as <-. exists p. split_and!; try done.
      apply (occ_shorter rs bs0 f p Hw). rewrite Ep. left. done.
    + destruct (A3 f id' c1 Hf E1) as (p & Ep & Hp). rewrite (B2 f id' Hf E2) in Ep. discriminate.
    + destruct (B3 f id' c2 Hf E2) as (p & Ep & Hp). rewrite (A2 f id' Hf E1) in Ep. discriminate.
  - intros f id' Hf. specialize (A4 f id' Hf). specialize (B4 f id' Hf).
    assert (Hin : forall w, In w (occ f rs) -> In w (occ f rs)) by auto. revert Hin A4 B4.
    generalize (occ f rs) at 1 3 4. generalize (elems_at t f) (elems_at t2 f). intros l1 l2 ws Hin A4. revert l2.
    induction A4 as [|w c ws cs (p & -> & Hp) A4 IH]; intros l2 B4; inversion B4 as [|w' c2 ws' cs2 (q & Eq & Hq) B4' ]; subst; constructor.
    + injection Eq as <-. exists p. split_and!; try done. apply (occ_shorter rs bs0 f p Hw). apply Hin. left. done.
    + apply IH; [|done]. intros w Hw'. apply Hin. right. done.
Qed.

(** A recursive type with a scalar, a child and repeated children.  The other
    side's bytes have the records in another order, a non-minimal varint, a
    duplicate scalar and a record of an undeclared field. *)
Definition node : env :=
  mkEnv (fun _ => mkMtype 5 [3])
        (fun _ f => if f =? 1 then Some (TScalar PSint64) else if f =? 2 then Some (TMsg 0)
                    else if f =? 3 then Some (TRep 0) else None).
Lemma node_ok : env_ok node.
Proof.
  intros id. split_and!.
  - cbn. lia.
  - intros f k. unfold esc. cbn. destruct (Z.eqb_spec f 1); [intros; lia|]. destruct (Z.eqb_spec f 2); [intros; lia|].
    destruct (Z.eqb_spec f 3); [intros; lia|discriminate].
  - intros f. unfold esc. cbn. destruct (Z.eqb_spec f 1); [discriminate|]. destruct (Z.eqb_spec f 2); [discriminate|].
    destruct (Z.eqb_spec f 3); [intros; left; lia|discriminate].
  - intros f T. unfold esc. cbn. destruct (Z.eqb_spec f 1); [intros _ [|[]]; lia|]. destruct (Z.eqb_spec f 2); [intros _ [|[]]; lia|].
    destruct (Z.eqb_spec f 3); discriminate.
Qed.
Definition leaf_bs : list Z := [8; 129; 0].
Definition leaf : tree := TSet 1 (VNum (-1)) TNil.
Definition root_bs : list Z := [26; 3; 8; 129; 0; 8; 4; 32; 9; 18; 0; 8; 6; 26; 0].
Definition root : tree := TSet 1 (VNum 3) (TSub 2 TNil (TAdd 3 leaf (TAdd 3 TNil TNil))).
Lemma wire1 f v vb rs bs : 0 <= f < 16 -> is_varint v vb -> wire rs bs -> wire ((f, WVarint v) :: rs) ((8 * f :: vb) ++ bs).
Proof.
  intros Hf Hv Hw. apply wire_cons; [|exact Hw]. exists [8 * f], vb. split_and!; [done| |exact Hv].
  split; [cbn; lia|]. replace (8 * f) with (8 * (f, WVarint v).1 + wire_type (f, WVarint v).2) by (cbn; lia). apply small_varint. cbn. lia.
Qed.
Lemma wire2 f p rs bs : 0 <= f < 15 -> Z.of_nat (length p) < 128 -> Forall is_byte p -> wire rs bs ->
  wire ((f, WBytes p) :: rs) ((8 * f + 2 :: Z.of_nat (length p) :: p) ++ bs).
Proof.
  intros Hf Hl Hb Hw. apply wire_cons; [|exact Hw]. exists [8 * f + 2], (Z.of_nat (length p) :: p). split_and!; [done| |].
  - split; [cbn; lia|]. apply small_varint. cbn. lia.
  - exists [Z.of_nat (length p)]. split_and!; [done|apply small_varint; lia|exact Hb].
Qed.
Lemma nil_enc : encodes node 0 [] TNil.
Proof.
  apply (Encodes node 0 []); [constructor|constructor|]. unfold holds. split_and!; try done. intros f i Hf. constructor.
Qed.
Lemma leaf_enc : encodes node 0 leaf_bs leaf.
Proof.
  apply (Encodes node 0 [(1, WVarint 1)]).
  - apply (wire1 1 1 [129; 0] [] []); [lia| |constructor]. exists [129], 0. split_and!; cbn; try lia; try done. repeat constructor; lia.
  - constructor; [cbn; lia|constructor].
  - unfold holds. split_and!.
    + intros f T. cbn -[last]. destruct (Z.eqb_spec f 1) as [->|]; [|destruct (f =? 2); [discriminate|destruct (f =? 3); discriminate]].
      intros [= <-]. split; [|reflexivity]. intros w [= <-]. split; [reflexivity|exact I].
    + intros f i Hf _. cbn [occ]. destruct (Z.eqb_spec 1 f) as [<-|]; [discriminate Hf|done].
    + intros f i c. discriminate.
    + intros f i Hf. cbn [occ]. destruct (Z.eqb_spec 1 f) as [<-|]; [discriminate Hf|constructor].
Qed.
Example C66_case :
  encodes node 0 root_bs root /\
  let us := [MScalar 1 (VNum 70); MSub 2 (mkMsg root_bs (offsets_zero 5)) root; MAdd 3 (mkMsg leaf_bs (offsets_zero 5)) leaf;
             MScalar 1 (VNum (-1)); MSub 2 (mkMsg leaf_bs (offsets_zero 5)) leaf; MAdd 3 (mkMsg [] (offsets_zero 5)) TNil] in
  Forall (mut_ok node 0) us /\ muts_size us < 2 ^ 63 /\
  match zero_run node 0 (msg_zero (emt node 0)) us with
  | Ok m => m_Encode m = [26; 3; 8; 129; 0; 8; 1; 18; 3; 8; 129; 0; 26; 0]
  | _ => False
  end.
Proof.
  assert (Hr : encodes node 0 root_bs root).
  { apply (Encodes node 0 [(3, WBytes leaf_bs); (1, WVarint 4); (4, WVarint 9); (2, WBytes []); (1, WVarint 6); (3, WBytes [])]).
    - apply (wire2 3 leaf_bs _ [8; 4; 32; 9; 18; 0; 8; 6; 26; 0]); [lia|cbn; lia|repeat constructor; unfold is_byte; lia|].
      apply (wire1 1 4 [4] _ [32; 9; 18; 0; 8; 6; 26; 0]); [lia|apply small_varint; lia|].
      apply (wire1 4 9 [9] _ [18; 0; 8; 6; 26; 0]); [lia|apply small_varint; lia|].
      apply (wire2 2 [] _ [8; 6; 26; 0]); [lia|cbn; lia|constructor|].
      apply (wire1 1 6 [6] _ [26; 0]); [lia|apply small_varint; lia|].
      apply (wire2 3 [] [] []); [lia|cbn; lia|constructor|constructor].
    - repeat constructor; cbn; lia.
    - unfold holds. split_and!.
      + intros f T Hf. assert (f = 1 /\ T = PSint64) as [-> ->].
        { cbn in Hf. destruct (Z.eqb_spec f 1) as [->|]; [injection Hf as <-; done|destruct (f =? 2); [discriminate|destruct (f =? 3); discriminate]]. }
        split; [|reflexivity]. intros w [= <-]. split; [reflexivity|exact I].
      + intros f i Hf. assert (f = 2) as ->.
        { cbn in Hf. destruct (Z.eqb_spec f 1); [discriminate|]. destruct (Z.eqb_spec f 2); [done|destruct (f =? 3); discriminate]. }
        discriminate.
      + intros f i c Hf. assert (f = 2 /\ i = 0%nat) as [-> ->].
        { cbn in Hf. destruct (Z.eqb_spec f 1); [discriminate|]. destruct (Z.eqb_spec f 2); [injection Hf as <-; done|destruct (f =? 3); discriminate]. }
        intros [= <-]. exists []. split; [reflexivity|exact nil_enc].
      + intros f i Hf. assert (f = 3 /\ i = 0%nat) as [-> ->].
        { cbn in Hf. destruct (Z.eqb_spec f 1); [discriminate|]. destruct (Z.eqb_spec f 2); [discriminate|]. destruct (Z.eqb_spec f 3); [injection Hf as <-; done|discriminate]. }
        cbn. constructor; [exists leaf_bs; split; [done|exact leaf_enc]|]. constructor; [exists []; split; [done|exact nil_enc]|constructor]. }
  split; [exact Hr|]. cbn zeta. split; [|split; [reflexivity|vm_compute; reflexivity]].
  repeat (apply Forall_cons; split; [first [eexists; split; [reflexivity|]; first [exact Hr|exact leaf_enc|exact nil_enc|cbn; lia]]|]). constructor.
Qed.

Print Assumptions C66_decode.
Print Assumptions C66_mutations.
Print Assumptions C66_unambiguous.

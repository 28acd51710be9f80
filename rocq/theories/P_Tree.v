(** * Property C20: whole message trees round trip *)
From Verif Require Import Tree TreeFacts Demo.

(** Building any well-typed tree bottom-up succeeds, and reading it back, from
    the struct itself or from any struct its encoding was decoded into, shows the
    same tree.  [D] ranges over all families of (possibly recursive) message
    types. *)
Theorem C20_tree_round_trip D id t x :
  env_ok D -> tree_ok D id t -> tree_size t < 2 ^ 63 -> of_type (emt D id) x ->
  exists m y, build D id t = Ok m /\ reads D id m t /\
    m_Decode (emt D id) x (m_Encode m) = Ok (None, y) /\ reads D id y t.
Proof. intros HD. exact (tree_round_trip D HD id t x). Qed.

(** [reads] determines the tree shown: a message cannot read as two trees that
    differ in a scalar, in the presence of a sub-tree or in the number of
    elements, and by recursion anywhere below. *)
Theorem C20_reads_exact D id m t1 t2 :
  reads D id m t1 -> reads D id m t2 ->
  (forall f T, ekind D id f = Some (TScalar T) ->
     match scalar_at t1 f with Some v => stored v | None => default_of T end =
     match scalar_at t2 f with Some v => stored v | None => default_of T end) /\
  (forall f id', ekind D id f = Some (TMsg id') ->
     match sub_at t1 f, sub_at t2 f with
     | None, None => True
     | Some c1, Some c2 => exists y, reads D id' y c1 /\ reads D id' y c2
     | _, _ => False
     end) /\
  (forall f id', ekind D id f = Some (TRep id') ->
     Forall2 (fun c1 c2 => exists y, reads D id' y c1 /\ reads D id' y c2) (elems_at t1 f) (elems_at t2 f)).
Proof.
  intros [id1 m1 t1' A1 A2 A3 A4] R2. inversion R2 as [id2 m2 t2' B1 B2 B3 B4]; subst. split_and!.
  - intros f T Hf. specialize (A1 f T Hf). specialize (B1 f T Hf). congruence.
  - intros f id' Hf. assert (Hz : of_type (emt D id') (msg_zero (emt D id'))) by apply replicate_length.
    destruct (sub_at t1' f) as [c1|] eqn:E1, (sub_at t2 f) as [c2|] eqn:E2; auto.
    + destruct (A3 f id' _ c1 Hf E1 Hz) as (y1 & Y1 & R1). destruct (B3 f id' _ c2 Hf E2 Hz) as (y2 & Y2 & R2').
      rewrite Y1 in Y2. injection Y2 as ->. eauto.
    + destruct (A3 f id' _ c1 Hf E1 Hz) as (y1 & Y1 & _). rewrite (B2 f id' _ Hf E2) in Y1. discriminate.
    + destruct (B3 f id' _ c2 Hf E2 Hz) as (y2 & Y2 & _). rewrite (A2 f id' _ Hf E1) in Y2. discriminate.
  - intros f id' Hf. assert (Hz : of_type (emt D id') (msg_zero (emt D id'))) by apply replicate_length.
    set (n := S (length (elems_at t1' f) + length (elems_at t2 f))).
    destruct (A4 f id' _ n Hf Hz ltac:(lia)) as (l1 & L1 & F1). destruct (B4 f id' _ n Hf Hz ltac:(lia)) as (l2 & L2 & F2).
    rewrite L1 in L2. injection L2 as <-. clear -F1 F2. revert F2. generalize (elems_at t2 f).
    induction F1 as [|p c l cs [_ H] F1 IH]; intros l2 F2; inversion F2 as [|p' c2 l' cs2 [_ H2] F2' ]; subst; constructor; eauto.
Qed.

(** A recursive message type: a list-like node with a scalar, a child of its own
    type and repeated children. *)
Definition demo_env : env :=
  mkEnv (fun _ => mkMtype 4 [3])
        (fun _ f => if f =? 1 then Some (TScalar PSint64) else if f =? 2 then Some (TMsg 0)
                    else if f =? 3 then Some (TRep 0) else None).
Definition demo_leaf (z : Z) : tree := TSet 1 (VNum z) TNil.
Definition demo_tree : tree :=
  TAdd 3 (demo_leaf 7) (TSet 1 (VNum 5) (TSub 2 (TSub 2 (TAdd 3 TNil (demo_leaf (-9))) (demo_leaf 2))
    (TAdd 3 (TAdd 3 (demo_leaf 1) TNil) (TSet 1 (VNum (-300)) TNil)))).

Example C20_case :
  env_ok demo_env /\ tree_ok demo_env 0 demo_tree /\ tree_size demo_tree < 2 ^ 63 /\
  match build demo_env 0 demo_tree with
  | Ok m => m_Encode m = [26; 2; 8; 14; 18; 8; 18; 4; 26; 0; 8; 17; 8; 4; 26; 4; 26; 2; 8; 2; 8; 215; 4]
  | _ => False
  end.
Proof.
  split_and!.
  - intros id. split_and!.
    + cbn. lia.
    + intros f k. unfold esc. cbn. destruct (Z.eqb_spec f 1); [intros; lia|]. destruct (Z.eqb_spec f 2); [intros; lia|].
      destruct (Z.eqb_spec f 3); [intros; lia|discriminate].
    + intros f. unfold esc. cbn. destruct (Z.eqb_spec f 1); [discriminate|]. destruct (Z.eqb_spec f 2); [discriminate|].
      destruct (Z.eqb_spec f 3); [intros; left; lia|discriminate].
    + intros f T. unfold esc. cbn. destruct (Z.eqb_spec f 1); [intros _ [|[]]; lia|]. destruct (Z.eqb_spec f 2); [intros _ [|[]]; lia|].
      destruct (Z.eqb_spec f 3); discriminate.
  - cbn. repeat split; try (eexists; split; [reflexivity|]); cbn; repeat split; try lia; try (eexists; split; [reflexivity|]); cbn; repeat split; try lia;
      try (eexists; split; [reflexivity|]); cbn; repeat split; try lia; try (eexists; split; [reflexivity|]); cbn; repeat split; lia.
  - reflexivity.
  - vm_compute. reflexivity.
Qed.

Print Assumptions C20_tree_round_trip.
Print Assumptions C20_reads_exact.

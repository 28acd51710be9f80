(** * Property C57: the text of a message *)
From Verif Require Import Gen.
From Verif Require Import GenSpec Golden.
From Verif Require Import Tree Text TextFacts.

(** [test_mt] and [test_env] are the type and the fields of the message declared
    in golden/test.proto, as recorded in golden/test.parsed. *)
Theorem C57_declared :
  exists f d, rq_protos test_request = [Some f] /\ somes (fl_messages f) = [d] /\ mtype_of d = test_mt /\
    forall k, schema_of d k = esc test_env 0 k.
Proof.
  eexists _, _. split; [reflexivity|]. split; [reflexivity|]. split; [vm_compute; reflexivity|]. intros k.
  destruct (decide (1 <= k <= 34)) as [Hk|Hk].
  - assert (Hin : In k (seqZ 1 34)) by (apply elem_of_list_In, elem_of_seqZ; lia). clear Hk. cbv in Hin.
    repeat (destruct Hin as [<-|Hin]; [vm_compute; reflexivity|]). contradiction.
  - assert (Hf : forall A (g : A -> Z) l, forallb (fun x => (1 <=? g x) && (g x <=? 34)) l = true -> List.find (fun x => g x =? k) l = None).
    { intros A g l. induction l as [|x l IH]; cbn [forallb List.find]; [reflexivity|]. intros H.
      apply andb_true_iff in H as [H1 H2]. apply andb_true_iff in H1 as [H0 H1]. apply Z.leb_le in H0, H1.
      rewrite (proj2 (Z.eqb_neq (g x) k)) by lia. apply IH, H2. }
    unfold schema_of, field_at. rewrite (Hf _ (fun f => getNumber (Some f))) by (vm_compute; reflexivity).
    unfold esc. cbn [ekind test_env]. rewrite (proj2 (Z.eqb_neq k 17)), (proj2 (Z.eqb_neq k 34)) by lia.
    rewrite (Hf _ (fun x => x.1.1)) by (vm_compute; reflexivity). reflexivity.
Qed.

(** For every tree of test messages, however its root and its children were
    built, and for the message itself as well as for any struct its encoding was
    decoded into: Text and WriteText write exactly the text of the tree (after what
    the writer already has), whatever the formats of floats and of quoted strings
    are.  [N]: the recursion needs a stack of some finite depth. *)
Theorem C57_text fmt64 fmt32 quote t s :
  tree_ok test_env 0 t -> tree_size t < 2 ^ 63 -> text_of fmt64 fmt32 quote t s ->
  exists m N, build test_env 0 t = Ok m /\
    (forall fuel w, (N <= fuel)%nat -> WriteText fmt64 fmt32 quote fuel m w = Ok (w +:+ s)) /\
    (forall x, of_type test_mt x -> exists y, m_Decode test_mt x (m_Encode m) = Ok (None, y) /\
       forall fuel w, (N <= fuel)%nat -> WriteText fmt64 fmt32 quote fuel y w = Ok (w +:+ s)).
Proof. apply text_exact. Qed.

(** Every tree has one text. *)
Theorem C57_text_unique fmt64 fmt32 quote t :
  tree_ok test_env 0 t -> tree_size t < 2 ^ 63 ->
  exists s, text_of fmt64 fmt32 quote t s /\ forall s', text_of fmt64 fmt32 quote t s' -> s' = s.
Proof.
  intros H1 H2. destruct (text_total fmt64 fmt32 quote t H1 H2) as (s & Hs). exists s. split; [exact Hs|].
  intros s' Hs'. eapply text_of_fun; eassumption.
Qed.

Definition text_demo : tree :=
  TSet 2 (VNum (-5)) (TAdd 34 (TSet 1 (VBool true) TNil) (TSub 17 (TSub 17 TNil (TSet 14 (VString [104; 105]) TNil))
    (TAdd 34 TNil (TSet 15 (VBytes (Some [0])) (TSet 16 (VNum 0) TNil))))).
Example C57_case :
  tree_ok test_env 0 text_demo /\ tree_size text_demo < 2 ^ 63 /\
  match build test_env 0 text_demo with
  | Ok m => Text (fun _ => "?") (fun _ => "?") (fun s => "'" +:+ itoa (Z.of_nat (String.length s)) +:+ "'") 5 m =
      Ok "int32=-5 byte_array='1' enum=0 message=<string=hi message=<> > messages=<bool=true > messages=<> "
  | _ => False
  end.
Proof.
  split_and!; [|reflexivity|vm_compute; reflexivity].
  cbn. repeat split; try (eexists; split; [reflexivity|]); cbn; repeat split; try lia; try (eexists; split; [reflexivity|]); cbn; repeat split; try lia;
    try (eexists; split; [reflexivity|]); cbn; repeat split; try lia; repeat constructor; unfold is_byte; lia.
Qed.

(** Strings are printed without quotes, so the text does not determine the
    message: here one message has a string and an enum, the other only a string. *)
Theorem C57_ambiguous_refuted fmt64 fmt32 quote :
  exists t1 t2 s, tree_ok test_env 0 t1 /\ tree_ok test_env 0 t2 /\
    scalar_at t1 16 = Some (VNum 5) /\ scalar_at t2 16 = None /\
    text_of fmt64 fmt32 quote t1 s /\ text_of fmt64 fmt32 quote t2 s.
Proof.
  exists (TSet 14 (VString [97]) (TSet 16 (VNum 5) TNil)), (TSet 14 (VString [97; 32; 101; 110; 117; 109; 61; 53]) TNil), "string=a enum=5 ".
  split_and!; try reflexivity.
  1,2: cbn; repeat split; eexists; (split; [reflexivity|]); cbn; first [lia|repeat constructor; unfold is_byte; lia].
  - apply (TextOf fmt64 fmt32 quote (TSet 14 (VString [97]) (TSet 16 (VNum 5) TNil)) [] []); constructor.
  - apply (TextOf fmt64 fmt32 quote (TSet 14 (VString [97; 32; 101; 110; 117; 109; 61; 53]) TNil) [] []); constructor.
Qed.

(** Messages outside the theorem: on one with a malformed sub-message, which Decode
    accepts, WriteText panics. *)
Theorem C57_panics fmt64 fmt32 quote :
  exists m, m_Decode test_mt (msg_zero test_mt) [138; 1; 1; 8] = Ok (None, m) /\
    forall fuel w, WriteText fmt64 fmt32 quote (S fuel) m w = Panic.
Proof.
  eexists. split; [vm_compute; reflexivity|]. intros fuel w. vm_compute. reflexivity.
Qed.

(** The same in the repeated field. *)
Theorem C57_list_panics fmt64 fmt32 quote :
  exists m, m_Decode test_mt (msg_zero test_mt) [146; 2; 1; 8] = Ok (None, m) /\
    forall fuel w, WriteText fmt64 fmt32 quote (S fuel) m w = Panic.
Proof.
  eexists. split; [vm_compute; reflexivity|]. intros fuel w. vm_compute. reflexivity.
Qed.

Lemma text_loop_ok text : forall n it sub w s, text_loop n text it sub w = Ok s ->
  exists l, iterate n test_mt it 34 sub = Ok l /\ Forall (fun e => e.1 = None) l.
Proof.
  induction n as [|n IH]; intros it sub w s H; cbn [text_loop iterate] in *; [discriminate H|].
  destruct (it_Next test_mt it 34 sub) as [[[[it' ok] er] sub']| | |]; cbn [rbind] in *; try discriminate H.
  destruct er as [er|]; [discriminate H|]. destruct ok; [|exists []; split; [reflexivity|constructor]].
  destruct (text sub' _) as [w'| | |]; cbn [rbind] in H; try discriminate H.
  destruct (IH _ _ _ _ H) as (l & -> & Hl). cbn [rbind]. exists ((None, sub') :: l). split; [reflexivity|]. constructor; [reflexivity|exact Hl].
Qed.

(** On any struct whatsoever, WriteText returns only if the sub-message, if there is
    one, decodes without error, and so does every element of the repeated field: an
    error is never passed over. *)
Theorem C57_no_error_passed_over fmt64 fmt32 quote fuel m w s :
  WriteText fmt64 fmt32 quote fuel m w = Ok s ->
  (exists ok sub, m_Message test_mt m 17 (msg_zero test_mt) = Ok (ok, None, sub)) /\
  exists x l, m_iterate (fuel_of (mbuf m)) test_mt m 34 x = Ok l /\ Forall (fun e => e.1 = None) l.
Proof.
  destruct fuel as [|fuel]; [discriminate|]. cbn [WriteText].
  do 16 (match goal with |- rbind ?x _ = _ -> _ => destruct x as [?w| | |]; cbn beta iota delta [rbind]; [|discriminate..] end).
  destruct (m_Message test_mt m 17 (msg_zero test_mt)) as [[[ok er] sub]| | |]; cbn [rbind]; [|discriminate..].
  destruct er as [er|]; [discriminate|]. intros H. split; [eauto|].
  match type of H with rbind ?x _ = _ => destruct x as [wsub| | |]; cbn [rbind] in H; [|discriminate H..] end.
  unfold m_iterate. destruct (m_Iter m 34) as [it| | |]; cbn [rbind] in *; try discriminate H.
  exists sub. eapply text_loop_ok, H.
Qed.

Print Assumptions C57_text.
Print Assumptions C57_text_unique.
Print Assumptions C57_ambiguous_refuted.
Print Assumptions C57_panics.
Print Assumptions C57_declared.
Print Assumptions C57_list_panics.
Print Assumptions C57_no_error_passed_over.

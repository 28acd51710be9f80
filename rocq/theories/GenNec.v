(** * What acceptance of a generated package implies *)
From Verif Require Import Gen GoLang GoCheck GoCheckFacts GenSpec GenLex GenText GenNames GenAst GenFile GenCheck GenPkg.
From Coq Require Import ZifyBool.

Section inv.
Context (ds : list decl) (im : list string).

Lemma s_define_inv n Γ blk rs x e ss : stmts_ok ds im (S n) Γ blk rs (SDefine [EId x] [e] :: ss) = true ->
  exists t a, typeof ds im Γ e = Some (EV t a) /\ stmts_ok ds im n ((x, t) :: Γ) (x :: blk) rs ss = true.
Proof.
  cbn [stmts_ok]. destruct (typeof ds im Γ e) as [[t a| | | | |]|]; try done. intros H.
  apply andb_true_iff in H as [_ H]. eauto.
Qed.
Lemma s_var_inv n Γ blk rs x g ss : stmts_ok ds im (S n) Γ blk rs (SVar x g :: ss) = true ->
  exists t, resolve ds im g = Some t /\ stmts_ok ds im n ((x, t) :: Γ) (x :: blk) rs ss = true.
Proof.
  cbn [stmts_ok]. destruct (resolve ds im g) as [t|]; try done. intros H.
  apply andb_true_iff in H as [_ H]. eauto.
Qed.
Lemma s_if_inv n Γ blk rs e b ss : stmts_ok ds im (S n) Γ blk rs (SIf e b :: ss) = true ->
  is_Some (typeof ds im Γ e) /\ stmts_ok ds im n Γ [] rs b = true /\ stmts_ok ds im n Γ blk rs ss = true.
Proof.
  cbn [stmts_ok]. destruct (typeof ds im Γ e) as [v|]; try done. intros H.
  rewrite !andb_true_iff in H. destruct H as [[_ ?] ?]. eauto.
Qed.
Lemma s_assign_inv n Γ blk rs ls e ss : stmts_ok ds im (S n) Γ blk rs (SAssign ls [e] :: ss) = true ->
  is_Some (typeof ds im Γ e) /\ stmts_ok ds im n Γ blk rs ss = true.
Proof.
  cbn [stmts_ok]. destruct (typeof ds im Γ e) as [v|]; try done. intros H.
  rewrite !andb_true_iff in H. destruct H as [_ ?]. eauto.
Qed.
Lemma s_return2_inv n Γ blk rs e1 e2 ss : stmts_ok ds im (S n) Γ blk rs (SReturn [e1; e2] :: ss) = true ->
  is_Some (typeof ds im Γ e1) /\ is_Some (typeof ds im Γ e2).
Proof.
  cbn [stmts_ok]. destruct rs as [|t1 rs]; [done|]. destruct (typeof ds im Γ e1); [|done].
  destruct rs as [|t2 rs]; [rewrite andb_false_r; done|]. destruct (typeof ds im Γ e2); [|rewrite andb_false_r; done]. eauto.
Qed.
Lemma func_inv r x f ps rs body : decl_ok ds im (DFunc r (GPtr (GName x)) f ps rs body) = true ->
  exists pts rts, resolves ds im (map snd ps) = Some pts /\ resolves ds im rs = Some rts /\
  stmts_ok ds im (S (sizes body)) ((r, TPtr (TN x)) :: combine (map fst ps) pts) (r :: map fst ps) rts body = true.
Proof.
  cbn [decl_ok]. destruct (find_type ds x); [|done]. destruct (resolves ds im (map snd ps)) as [pts|]; [|done].
  destruct (resolves ds im rs) as [rts|]; [|done]. intros H. rewrite !andb_true_iff in H. destruct H as [[[_ H] _] _]. eauto.
Qed.

(** A predeclared name that is not a variable is not declared in the package. *)
Lemma predeclared_inv Γ x : local Γ x = None -> find_set ds x = None -> is_Some (typeof ds im Γ (EId x)) -> x ∉ pkg_names ds.
Proof.
  intros H1 H2 H3 Hin. apply mem_In in Hin. cbn [typeof] in H3. rewrite H1, Hin, H2 in H3. destruct H3; done.
Qed.
Lemma len_inv Γ e z : local Γ "len" = None ->
  is_Some (typeof ds im Γ (EBin OpGt (ECall (EId "len") [e]) (EInt z))) -> "len" ∉ pkg_names ds.
Proof.
  intros H1 H2 Hin. apply mem_In in Hin. cbn [typeof] in H2. rewrite H1, Hin in H2.
  destruct (find_type ds "len"); [|destruct H2; done]. destruct (typeof ds im Γ e) as [[| | | | |]|]; try (destruct H2; done).
  destruct (_ || _); [|destruct H2; done]. cbn in H2. destruct H2; done.
Qed.
(** A call of Decode on a parameter of type *t. *)
Lemma method_inv Γ v f es t u : local Γ v = Some (TPtr u) -> resolve ds im (GName t) = Some u ->
  is_Some (typeof ds im Γ (ECall (ESel (EId v) f) es)) -> is_Some (find_method ds t f).
Proof.
  intros H1 H2 H3. rewrite typeof_call in H3. cbn zeta in H3. rewrite (t_var _ _ _ _ _ H1), H1 in H3.
  cbn [resolve] in H2. destruct (mem t (pkg_names ds)).
  - destruct (find_type ds t); [|done]. injection H2 as <-.
    destruct (typeofs ds im Γ es); [|destruct H3; done]. unfold method_sig in H3.
    destruct (find_method ds t f) as [m|]; [eauto|]. cbn in H3. destruct H3; done.
  - destruct (mem t universe_types); [|done]. injection H2 as <-. destruct H3; done.
Qed.

Lemma tail_inv n Γ blk rs v t u :
  local Γ "nil" = None -> local Γ "true" = None -> local Γ "false" = None ->
  find_set ds "nil" = None -> find_set ds "true" = None -> find_set ds "false" = None ->
  local Γ v = Some (TPtr u) -> resolve ds im (GName t) = Some u ->
  stmts_ok ds im (S (S (S n))) Γ blk rs [nil_check; SReturn [EId "true"; ECall (ESel (EId v) "Decode") [EId "buf"]]] = true ->
  "nil" ∉ pkg_names ds /\ "true" ∉ pkg_names ds /\ "false" ∉ pkg_names ds /\ is_Some (find_method ds t "Decode").
Proof.
  intros L1 L2 L3 S1 S2 S3 Hv Hu H. unfold nil_check in H.
  apply s_if_inv in H as (H1 & H2 & H3). apply s_return2_inv in H2 as [H2 H4]. apply s_return2_inv in H3 as [H5 H6].
  repeat split.
  - eapply predeclared_inv; [exact L1|done|done].
  - eapply predeclared_inv; [exact L2|done|done].
  - eapply predeclared_inv; [exact L3|done|done].
  - eapply method_inv; eassumption.
Qed.
End inv.

(** ** Names in a generated package *)
Lemma keys_in_messages fs x f : Forall good_file fs -> (x, f) ∈ method_keys (pkg_decls fs) -> f <> "Next" ->
  exists d, d ∈ messages fs /\ x = mname d.
Proof.
  intros Hg Hin Hf. assert (Hgm := good_messages fs Hg). rewrite pkg_decls_messages, method_keys_concat, map_map in Hin.
  apply elem_of_list_In, in_concat in Hin as (l & Hl & Hin). apply in_map_iff in Hl as (d & <- & Hd).
  apply elem_of_list_In in Hin, Hd. rewrite Forall_forall in Hgm. rewrite (keys_message d (Hgm d Hd)) in Hin.
  apply elem_of_app in Hin as [Hin|Hin].
  - apply elem_of_list_fmap in Hin as (m & E & _). injection E as -> ->. eauto.
  - apply elem_of_list_fmap in Hin as (m & E & _). injection E as -> ->. done.
Qed.
Lemma method_is_message fs t f : Forall good_file fs -> is_Some (find_method (pkg_decls fs) t f) -> f <> "Next" ->
  exists d, d ∈ messages fs /\ t = mname d.
Proof.
  intros Hg [m Hm] Hf. apply find_method_some in Hm as (r & ps & rs & b & -> & Hin).
  apply (keys_in_messages fs t f Hg); [|done]. unfold method_keys. apply elem_of_list_In, in_concat. exists [(t, f)].
  split; [|left; done]. apply in_map_iff. eexists. split; [|apply elem_of_list_In, Hin]. done.
Qed.
Lemma sets_prefix fs x g ks : Forall good_file fs -> DSet x g ks ∈ pkg_decls fs -> exists m, x = "repeatedFields_" +:+ m.
Proof.
  intros Hg Hin. assert (Hgm := good_messages fs Hg). rewrite pkg_decls_messages in Hin.
  apply elem_of_list_In, in_concat in Hin as (l & Hl & Hin). apply in_map_iff in Hl as (d & <- & Hd).
  apply elem_of_list_In in Hd. rewrite Forall_forall in Hgm. destruct (Hgm d Hd) as [_ Hfs].
  unfold message_file_decls in Hin. apply in_app_iff in Hin as [Hin|Hin].
  - cbn [header_decls In] in Hin. destruct Hin as [E|[E|[E|[E|[E|[]]]]]]; try discriminate E. injection E as <- _ _. eauto.
  - apply in_concat in Hin as (l & Hl & Hin). apply in_map_iff in Hl as (f & <- & Hf). apply elem_of_list_In in Hf.
    rewrite Forall_forall in Hfs. destruct (good_cases f (Hfs f Hf)) as [->|(Hs & Hn & Hk & C)]; [done|].
    destruct C as [(_ & _ & _ & E)|[(_ & _ & ty & fn & _ & E)|[(_ & _ & _ & E)|(_ & _ & _ & E)]]]; rewrite E in Hin; cbn in Hin;
      decompose [or] Hin; try done; try discriminate.
Qed.
Lemma set_none fs x : Forall good_file fs -> String.prefix "repeatedFields_" x = false -> find_set (pkg_decls fs) x = None.
Proof.
  intros Hg Hx. unfold find_set. destruct (find _ (pkg_decls fs)) as [d|] eqn:E; [|done].
  apply find_some in E as [Hin E]. destruct d as [|y g ks|]; try done. apply String.eqb_eq in E. subst y.
  apply elem_of_list_In in Hin. apply sets_prefix in Hin as [m ->]; [|done]. cbn in Hx. destruct m; done.
Qed.

(** ** What acceptance gives *)
Section accepted.
Context (fs : list file) (Hgood : Forall good_file fs) (Hok : package_ok (map file_ast fs) = true).
Notation D := (pkg_decls fs).

Lemma ok_parts :
  NoDup (pkg_names D) /\ NoDup (method_keys D) /\
  "_" ∉ pkg_names D /\ "init" ∉ pkg_names D /\ fs <> [] /\
  (forall f g, f ∈ fs -> g ∈ fs -> default "" (fl_package f) = default "" (fl_package g)) /\
  forall f, f ∈ fs -> file_ok D (file_ast f) = true.
Proof.
  unfold package_ok in Hok. fold (pkg_decls fs) in Hok. rewrite !andb_true_iff, !negb_true_iff in Hok.
  destruct Hok as [[[[[H1 H2] H3] H5] H6] H7]. apply distinct_strings in H1. apply distinct_keys in H5.
  apply mem_not in H2, H3. repeat (split; [assumption|]). clear Hok. split.
  { destruct fs; done. }
  split.
  - destruct fs as [|f0 l]; [done|]. cbn [map] in H6. rewrite forallb_forall in H6.
    assert (E : forall f, f ∈ f0 :: l -> default "" (fl_package f) = default "" (fl_package f0)).
    { intros f Hf. apply elem_of_list_In, (in_map file_ast) in Hf. apply H6, String.eqb_eq in Hf. done. }
    intros f g Hf Hg. rewrite (E f Hf), (E g Hg). done.
  - intros f Hf. rewrite forallb_forall in H7. apply H7, in_map, elem_of_list_In. done.
Qed.
Lemma ok_nd : NoDup (pkg_names D). Proof. apply ok_parts. Qed.
Lemma ok_mk : NoDup (method_keys D). Proof. apply ok_parts. Qed.

Lemma ok_file f : f ∈ fs ->
  "zeropb" ∉ pkg_names D /\ somes (fl_messages f) <> [] /\ default "" (fl_package f) <> "_" /\ default "" (fl_package f) <> "main" /\
  forall x, x ∈ file_decls f -> decl_ok D ["zeropb"] x = true.
Proof.
  intros Hf. assert (H : file_ok D (file_ast f) = true) by (apply ok_parts; done).
  unfold file_ok in H. cbn [gf_imports gf_decls gf_package file_ast] in H.
  change (omap import_name ["github.com/danhhz/zeropb"]) with ["zeropb"] in H. cbn [forallb] in H.
  rewrite !andb_true_iff, !negb_true_iff in H. destruct H as [[[[_ [[H1 H2] _]] H3] H3'] H4].
  split; [apply mem_not; done|]. split; [|split; [|split]].
  - intros E. rewrite file_decls_messages, E in H2. done.
  - apply String.eqb_neq. done.
  - apply String.eqb_neq. done.
  - intros x Hx. rewrite forallb_forall in H4. apply H4, elem_of_list_In. done.
Qed.
Lemma ok_decl d x : d ∈ messages fs -> x ∈ message_file_decls d -> decl_ok D ["zeropb"] x = true.
Proof.
  intros Hd Hx. unfold messages in Hd. apply elem_of_list_In, in_concat in Hd as (l & Hl & Hd).
  apply in_map_iff in Hl as (f & <- & Hf). apply elem_of_list_In in Hf. apply (ok_file f Hf).
  rewrite file_decls_messages. apply elem_of_list_In, in_concat. exists (message_file_decls d).
  split; [apply in_map; done|apply elem_of_list_In; done].
Qed.

(** The predeclared identifiers the generated code uses keep their meaning. *)
Lemma ok_len d : d ∈ messages fs -> "len" ∉ pkg_names D.
Proof.
  intros Hd. assert (H : decl_ok D ["zeropb"] (reset_decl (mname d)) = true).
  { apply (ok_decl d); [done|]. apply header_in. unfold header_decls. repeat (first [apply elem_of_list_here|apply elem_of_list_further]). }
  apply func_inv in H as (pts & rts & _ & _ & H). cbn [sizes fold_right size Nat.add map fst] in H.
  apply s_if_inv in H as (H & _). eapply len_inv; [|exact H]. destruct pts; done.
Qed.

Lemma ok_panic d : d ∈ messages fs -> "panic" ∉ pkg_names D.
Proof.
  intros Hd. assert (H : decl_ok D ["zeropb"] (reset_decl (mname d)) = true).
  { apply (ok_decl d); [done|]. apply header_in. unfold header_decls. repeat (first [apply elem_of_list_here|apply elem_of_list_further]). }
  apply func_inv in H as (pts & rts & _ & _ & H). cbn [sizes fold_right size Nat.add map fst] in H.
  apply s_if_inv in H as (_ & H & _). cbn [stmts_ok] in H. apply andb_true_iff in H as [H _]. unfold call_statement in H.
  apply andb_true_iff in H as [H _]. apply andb_true_iff in H as [_ H]. apply negb_true_iff in H. apply mem_not. done.
Qed.

Lemma ok_message_field d f : d ∈ messages fs -> f ∈ d_fields d -> f <> None -> getType f = 11 ->
  "nil" ∉ pkg_names D /\ "true" ∉ pkg_names D /\ "false" ∉ pkg_names D /\
  exists d', d' ∈ messages fs /\ base_name (getTypeName f) = mname d'.
Proof.
  intros Hd Hf Hne Hty. assert (Hgd := pkg_good fs Hgood d Hd). destruct Hgd as [_ Hfs]. rewrite Forall_forall in Hfs.
  assert (S1 := set_none fs "nil" Hgood eq_refl). assert (S2 := set_none fs "true" Hgood eq_refl). assert (S3 := set_none fs "false" Hgood eq_refl).
  set (t := base_name (getTypeName f)) in *.
  assert (HT : "nil" ∉ pkg_names D /\ "true" ∉ pkg_names D /\ "false" ∉ pkg_names D /\ is_Some (find_method D t "Decode")).
  { destruct (good_cases f (Hfs f Hf)) as [->|(_ & Hn & Hk & C)]; [done|].
    destruct C as [(_ & _ & _ & E)|[(_ & Hx & _)|[(_ & _ & _ & E)|(_ & Hx & _)]]].
    - assert (H : decl_ok D ["zeropb"] (List.nth 0 (message_decls (mname d) (camel (getName f)) t (getNumber f)) (DType "" bytes_t)) = true).
      { apply (ok_decl d); [done|]. apply (field_in d f); [done|]. rewrite E. apply elem_of_list_here. }
      cbn [List.nth message_decls] in H. apply func_inv in H as (pts & rts & Hp & Hr & H).
      cbn [map snd resolves] in Hp. destruct (resolve D ["zeropb"] (GPtr (GName t))) as [pt|] eqn:Ep; [|done]. injection Hp as <-.
      assert (exists u, pt = TPtr u /\ resolve D ["zeropb"] (GName t) = Some u) as (u & -> & Eu).
      { change (resolve D ["zeropb"] (GPtr (GName t))) with (match resolve D ["zeropb"] (GName t) with Some t => Some (TPtr t) | None => None end) in Ep.
        destruct (resolve D ["zeropb"] (GName t)) as [u|]; [|done]. injection Ep as <-. eauto. }
      cbn [map fst sizes fold_right size Nat.add nil_check combine] in H.
      apply s_define_inv in H as (tb & ab & _ & H).
      apply (tail_inv _ _ 1 _ _ _ "x" t u) in H; try done.
    - rewrite Hty in Hx. destruct Hx; done.
    - assert (H : decl_ok D ["zeropb"] (List.nth 1 (repeated_decls (mname d) (camel (getName f)) t (mname d +:+ t +:+ "Iterator") (getNumber f)) (DType "" bytes_t)) = true).
      { apply (ok_decl d); [done|]. apply (field_in d f); [done|]. rewrite E. apply elem_of_list_further, elem_of_list_here. }
      cbn [List.nth repeated_decls] in H. apply func_inv in H as (pts & rts & Hp & Hr & H).
      cbn [map snd resolves] in Hp. destruct (resolve D ["zeropb"] (GPtr (GName t))) as [pt|] eqn:Ep; [|done]. injection Hp as <-.
      assert (exists u, pt = TPtr u /\ resolve D ["zeropb"] (GName t) = Some u) as (u & -> & Eu).
      { change (resolve D ["zeropb"] (GPtr (GName t))) with (match resolve D ["zeropb"] (GName t) with Some t => Some (TPtr t) | None => None end) in Ep.
        destruct (resolve D ["zeropb"] (GName t)) as [u|]; [|done]. injection Ep as <-. eauto. }
      cbn [map fst sizes fold_right size Nat.add nil_check combine] in H.
      apply s_var_inv in H as (tb & _ & H). apply s_assign_inv in H as (_ & H).
      apply (tail_inv _ _ 1 _ _ _ "m" t u) in H; try done.
    - done. }
  destruct HT as (H1 & H2 & H3 & H4). repeat (split; [done|]). apply method_is_message in H4 as (d' & ? & ?); eauto.
Qed.

Lemma ok_keys d : d ∈ messages fs -> NoDup (repeated_keys (d_fields d)).
Proof.
  intros Hd. assert (H : decl_ok D ["zeropb"] (table_decl (mname d) (repeated_keys (d_fields d))) = true).
  { apply (ok_decl d); [done|]. apply header_in. unfold header_decls. repeat (first [apply elem_of_list_here|apply elem_of_list_further]). }
  unfold table_decl in H. cbn [decl_ok resolve] in H.
  change (mem "zeropb" ["zeropb"] && String.eqb "zeropb" "zeropb" && mem "RepeatedFields" zeropb_types) with true in H. cbn match in H.
  cbn [underlying] in H. change (String.eqb "RepeatedFields" "RepeatedFields") with true in H. cbn match in H.
  apply andb_true_iff in H as [_ H]. apply distinct_Z in H. done.
Qed.
End accepted.

(** * Generated declarations type-check when names do not clash *)
From Verif Require Import Gen GoLang GoCheck GoCheckFacts GenSpec GenLex GenText GenNames GenAst GenFile.
From Coq Require Import ZifyBool.

Definition msg_ty (n : Z) : ty :=
  TStruct [("buf", bytes_ty);
           ("offsets", TStruct [("a", TArr n (TU "uint16")); ("m", TMap (TU "int") (TU "uint64"))])].

Section check.
Context (ds : list decl).
Notation im := ["zeropb"].
Context (Hres : forall x, x ∈ always -> mem x (pkg_names ds) = false).
Context (Hnd : NoDup (pkg_names ds)) (Hmk : NoDup (method_keys ds)).

Lemma free x : mem x always = true -> mem x (pkg_names ds) = false.
Proof. intros H. apply Hres, mem_In. done. Qed.

Lemma res_u x : mem x universe_types = true -> mem x always = true -> resolve ds im (GName x) = Some (TU x).
Proof. intros H1 H2. cbn [resolve]. rewrite (free x H2), H1. done. Qed.
Lemma res_free x : mem x universe_types = true -> mem x (pkg_names ds) = false -> resolve ds im (GName x) = Some (TU x).
Proof. intros H1 H2. cbn [resolve]. rewrite H2, H1. done. Qed.
Lemma found x g : find_type ds x = Some g -> mem x (pkg_names ds) = true.
Proof. intros H. apply mem_In. apply find_type_some in H. eapply pkg_names_in; [exact H|]. apply elem_of_list_singleton. done. Qed.
Lemma res_n x g : find_type ds x = Some g -> resolve ds im (GName x) = Some (TN x).
Proof. intros H. cbn [resolve]. rewrite (found x g H), H. done. Qed.
Lemma res_slice g t : resolve ds im g = Some t -> resolve ds im (GSlice g) = Some (TSlice t).
Proof. intros H. cbn [resolve]. rewrite H. done. Qed.
Lemma res_bytes : resolve ds im bytes_t = Some bytes_ty.
Proof. apply res_slice, res_u; done. Qed.
Lemma res_ptr g t : resolve ds im g = Some t -> resolve ds im (GPtr g) = Some (TPtr t).
Proof. intros H. cbn [resolve]. rewrite H. done. Qed.
Lemma res_struct n : 0 <= n -> resolve ds im (struct_t n) = Some (msg_ty n).
Proof.
  intros Hn.
  assert (E1 := res_bytes). assert (E2 := res_u "uint16" eq_refl eq_refl).
  assert (E3 := res_u "int" eq_refl eq_refl). assert (E4 := res_u "uint64" eq_refl eq_refl).
  unfold struct_t. set (bt := bytes_t) in *. clearbody bt.
  set (g1 := GName "uint16") in *. set (g2 := GName "int") in *. set (g3 := GName "uint64") in *. clearbody g1 g2 g3.
  cbn [resolve]. rewrite E1, E2, E3, E4. replace (0 <=? n) with true by lia. reflexivity.
Qed.

Lemma und_msg mt n : find_type ds mt = Some (struct_t n) -> 0 <= n -> underlying ds im (TN mt) = Some (msg_ty n).
Proof. intros H Hn. unfold underlying. rewrite H, (res_struct n Hn). done. Qed.
Lemma und_bytes it : find_type ds it = Some bytes_t -> underlying ds im (TN it) = Some bytes_ty.
Proof. intros H. unfold underlying. rewrite H, res_bytes. done. Qed.

(** ** Pieces of the generated methods *)
Section scope.
Context (mt : string) (n : Z) (Γ : list (string * ty)).
Context (Hmt : find_type ds mt = Some (struct_t n)) (Hn : 0 <= n).
Context (Hm : local Γ "m" = Some (TPtr (TN mt))) (Hz : local Γ "zeropb" = None).
Notation tof := (typeof ds im Γ).

Lemma fields_msg : fields_of ds im (TN mt) = Some [("buf", bytes_ty);
  ("offsets", TStruct [("a", TArr n (TU "uint16")); ("m", TMap (TU "int") (TU "uint64"))])].
Proof. unfold fields_of. rewrite (und_msg mt n) by done. done. Qed.
Lemma t_m : tof (EId "m") = Some (EV (TPtr (TN mt)) true).
Proof. apply t_var. done. Qed.
Lemma t_mbuf : tof mbuf_e = Some (EV bytes_ty true).
Proof. eapply t_sel_ptr; [apply t_m|apply fields_msg|done]. Qed.
Lemma t_moffsets : tof (ESel (EId "m") "offsets") = Some (EV (TStruct [("a", TArr n (TU "uint16")); ("m", TMap (TU "int") (TU "uint64"))]) true).
Proof. eapply t_sel_ptr; [apply t_m|apply fields_msg|done]. Qed.

Lemma t_z fn es ts ps rs :
  typeofs ds im Γ es = Some ts -> zeropb_func fn = Some (ps, rs) -> usables ds im ts ps = true ->
  tof (ECall (ESel (EId "zeropb") fn) es) = Some (result rs).
Proof. intros. eapply t_zeropb; try done. apply free. done. Qed.

Lemma t_offs : tof offs = Some (EV (TZ "Offsets") false).
Proof.
  unfold offs. change (EV (TZ "Offsets") false) with (result [TZ "Offsets"]). eapply t_z; [|reflexivity|].
  - eapply typeofs_cons; [|eapply typeofs_cons; [|reflexivity]].
    + eapply t_all, t_sel_struct; [apply t_moffsets|reflexivity].
    + eapply t_addr, t_sel_struct; [apply t_moffsets|reflexivity].
  - cbn [usables usable]. rewrite !assignable_refl. done.
Qed.

(** The arguments of a Get and of a Set function. *)
Lemma t_get fn k t : 0 <= k < 2 ^ 29 -> zeropb_func fn = Some (getter t) ->
  tof (ECall (ESel (EId "zeropb") fn) [mbuf_e; offs; EInt k]) = Some (EV t false).
Proof.
  intros Hk Hfn. change (EV t false) with (result [t]). eapply t_z; [|exact Hfn|].
  - eapply typeofs_cons; [apply t_mbuf|]. eapply typeofs_cons; [apply t_offs|]. eapply typeofs_cons; [apply t_int|reflexivity].
  - cbn [usables usable]. rewrite !assignable_refl. cbn [andb]. unfold fits. change (String.eqb "int" "int") with true.
    assert (2 ^ 29 = 536870912) by done. assert (2 ^ 31 = 2147483648) by done. lia.
Qed.
Lemma t_set fn k t e v : 0 <= k < 2 ^ 29 -> zeropb_func fn = Some (setter t) ->
  tof e = Some v -> usable ds im v t = true ->
  tof (ECall (ESel (EId "zeropb") fn) [EAddr mbuf_e; offs; EInt k; e]) = Some (EMulti []).
Proof.
  intros Hk Hfn He Hv. change (EMulti []) with (result []). eapply t_z; [|exact Hfn|].
  - eapply typeofs_cons; [apply t_addr, t_mbuf|]. eapply typeofs_cons; [apply t_offs|]. eapply typeofs_cons; [apply t_int|].
    eapply typeofs_cons; [exact He|reflexivity].
  - cbn [usables usable]. rewrite !assignable_refl, Hv. cbn [andb]. unfold fits. change (String.eqb "int" "int") with true.
    assert (2 ^ 29 = 536870912) by done. assert (2 ^ 31 = 2147483648) by done. lia.
Qed.
End scope.

(** Statements. *)
Lemma s_define m Γ blk rs x t a e ss :
  typeof ds im Γ e = Some (EV t a) -> mem x blk = false -> existsb (uses x) ss = true ->
  stmts_ok ds im m ((x, t) :: Γ) (x :: blk) rs ss = true -> stmts_ok ds im (S m) Γ blk rs (SDefine [EId x] [e] :: ss) = true.
Proof. intros H1 H2 H3 H4. cbn [stmts_ok]. rewrite H1, H2, H3, H4. done. Qed.
Lemma s_var m Γ blk rs x g t ss :
  resolve ds im g = Some t -> mem x blk = false -> existsb (uses x) ss = true ->
  stmts_ok ds im m ((x, t) :: Γ) (x :: blk) rs ss = true -> stmts_ok ds im (S m) Γ blk rs (SVar x g :: ss) = true.
Proof. intros H1 H2 H3 H4. cbn [stmts_ok]. rewrite H1, H2, H3, H4. done. Qed.
Lemma s_assign m Γ blk rs v vs ls e ss :
  typeof ds im Γ e = Some v -> values v = Some vs -> assign_ok ds im Γ ls vs = true ->
  stmts_ok ds im m Γ blk rs ss = true -> stmts_ok ds im (S m) Γ blk rs (SAssign ls [e] :: ss) = true.
Proof. intros H1 H2 H3 H4. cbn [stmts_ok]. rewrite H1, H2, H3, H4. done. Qed.

(** ** Message headers *)
Definition go_tys : list (gotype * ty) :=
  (bytes_t, bytes_ty) :: map (fun x => (GName x, TU x)) ["bool"; "int32"; "int64"; "uint32"; "uint64"; "float32"; "float64"; "string"].
Lemma res_tys g t : (g, t) ∈ go_tys -> (forall x, g = GName x -> mem x (pkg_names ds) = false) -> resolve ds im g = Some t.
Proof.
  unfold go_tys. cbn [map]. intros H Hf.
  apply elem_of_cons in H as [E|H]; [injection E as -> ->; apply res_bytes|].
  repeat (apply elem_of_cons in H as [E|H]; [injection E as -> ->; apply res_free; [done|apply Hf; done]|]).
  apply elem_of_nil in H. done.
Qed.

Section message.
Context (mt : string) (n : Z) (Hmt : find_type ds mt = Some (struct_t n)) (Hn : 0 <= n).

(** What is checked of a method once its body is well typed. *)
Lemma func_ok r x g f ps rs body pts rts :
  find_type ds x = Some g -> resolves ds im (map snd ps) = Some pts -> resolves ds im rs = Some rts ->
  distinct String.eqb (r :: map fst ps) = true ->
  stmts_ok ds im (S (sizes body)) ((r, TPtr (TN x)) :: combine (map fst ps) pts) (r :: map fst ps) rts body = true ->
  (match rs with [] => true | _ => terminating body end) = true ->
  match underlying ds im (TN x) with
  | Some (TStruct fs) => negb (mem f (map fst fs))
  | Some (TPtr _) | None => false
  | _ => true
  end = true ->
  decl_ok ds im (DFunc r (GPtr (GName x)) f ps rs body) = true.
Proof.
  intros H1 H2 H3 H4 H5 H6 H7. cbn [decl_ok]. rewrite H1, H2, H3, H4, H6, H7. rewrite H5. done.
Qed.
Lemma upper_not_field f : has_upper f = true -> mem f ["buf"; "offsets"] = false.
Proof.
  intros H. apply mem_not. intros Hin. rewrite !elem_of_cons in Hin.
  destruct Hin as [-> |[-> |Hin]]; [done|done|apply elem_of_nil in Hin; done].
Qed.
Lemma method_ok f ps rs body pts rts :
  has_upper f = true -> resolves ds im (map snd ps) = Some pts -> resolves ds im rs = Some rts ->
  distinct String.eqb ("m" :: map fst ps) = true ->
  stmts_ok ds im (S (sizes body)) (("m", TPtr (TN mt)) :: combine (map fst ps) pts) ("m" :: map fst ps) rts body = true ->
  (match rs with [] => true | _ => terminating body end) = true ->
  decl_ok ds im (DFunc "m" (GPtr (GName mt)) f ps rs body) = true.
Proof.
  intros H0 H2 H3 H4 H5 H6. eapply func_ok; try done. rewrite (und_msg mt n) by done. cbn [msg_ty map fst].
  rewrite upper_not_field by done. done.
Qed.

Lemma struct_ok : decl_ok ds im (struct_decl mt n) = true.
Proof. unfold struct_decl. cbn [decl_ok]. rewrite res_struct by done. done. Qed.
Lemma table_ok ks : NoDup ks -> Forall (fun k => 0 <= k < 2 ^ 29) ks -> decl_ok ds im (table_decl mt ks) = true.
Proof.
  intros H1 H2. unfold table_decl. cbn [decl_ok resolve].
  change (mem "zeropb" im && String.eqb "zeropb" "zeropb" && mem "RepeatedFields" zeropb_types) with true. cbn match.
  cbn [underlying]. change (String.eqb "RepeatedFields" "RepeatedFields") with true. cbn match.
  apply andb_true_iff. split; [|apply distinct_Z; done].
  apply forallb_forall. intros z Hz. rewrite Forall_forall in H2. apply elem_of_list_In, H2 in Hz.
  unfold fits. change (String.eqb "int" "int") with true. assert (2 ^ 29 = 536870912) by done. assert (2 ^ 31 = 2147483648) by done. lia.
Qed.

Lemma encode_ok : decl_ok ds im (encode_decl mt) = true.
Proof.
  eapply method_ok; try reflexivity.
  - cbn [resolves]. rewrite res_bytes. reflexivity.
  - cbn [stmts_ok sizes fold_right size Nat.add map fst combine]. rewrite (t_mbuf mt n) by done. done.
Qed.
Lemma decode_ok ks : DSet ("repeatedFields_" +:+ mt) (GQual "zeropb" "RepeatedFields") ks ∈ ds ->
  "repeatedFields_" +:+ mt <> "m" -> "repeatedFields_" +:+ mt <> "buf" -> decl_ok ds im (decode_decl mt) = true.
Proof.
  intros Htab Hne1 Hne2. eapply method_ok; try reflexivity.
  - cbn [map snd resolves]. rewrite res_bytes. reflexivity.
  - cbn [resolves]. rewrite (res_u "error") by done. reflexivity.
  - cbn [map fst snd combine sizes fold_right size Nat.add].
    set (Γ := [("m", TPtr (TN mt)); ("buf", bytes_ty)]).
    assert (H1 : typeof ds im Γ (EId "buf") = Some (EV bytes_ty true)) by (apply t_var; done).
    assert (H2 : typeof ds im Γ mbuf_e = Some (EV bytes_ty true)) by (apply (t_mbuf mt n); done).
    cbn [stmts_ok]. rewrite H1. cbn [values assign_ok]. rewrite H2. cbn [usable]. rewrite assignable_refl. cbn [andb].
    erewrite t_z; [|done| |reflexivity|].
    + cbn [result usable]. rewrite assignable_refl. done.
    + eapply typeofs_cons; [exact H2|]. eapply typeofs_cons; [apply (t_offs mt n); done|].
      eapply typeofs_cons; [|reflexivity]. instantiate (1 := EV (TZ "RepeatedFields") true).
      set (rf := "repeatedFields_" +:+ mt) in *. cbn [typeof].
      assert (local Γ rf = None) as ->.
      { unfold local, Γ. cbn [find fst]. destruct (String.eqb_spec "m" rf); [congruence|].
        destruct (String.eqb_spec "buf" rf); [congruence|]. done. }
      assert (mem rf (pkg_names ds) = true) as ->.
      { apply mem_In. eapply pkg_names_in; [exact Htab|]. apply elem_of_list_singleton. done. }
      unfold find_set. rewrite (find_set_in _ _ _ _ Hnd Htab). done.
    + cbn [usables usable]. rewrite !assignable_refl. done.
Qed.
Lemma reset_ok : decl_ok ds im (reset_decl mt) = true.
Proof.
  eapply method_ok; try reflexivity.
  - cbn [map snd resolves]. rewrite res_bytes. reflexivity.
  - cbn [map fst snd combine sizes fold_right size Nat.add].
    set (Γ := [("m", TPtr (TN mt)); ("buf", bytes_ty)]).
    assert (H1 : typeof ds im Γ (EId "buf") = Some (EV bytes_ty true)) by (apply t_var; done).
    assert (H2 : typeof ds im Γ mbuf_e = Some (EV bytes_ty true)) by (apply (t_mbuf mt n); done).
    cbn [stmts_ok]. erewrite t_gt; [|eapply t_len; [done|apply free; done|done|exact H1|reflexivity]|apply t_int|reflexivity].
    cbn [usable]. rewrite assignable_refl. cbn [andb].
    unfold call_statement at 1. rewrite t_panic; [|done|apply free; done|done].
    rewrite (free "panic") by done. cbn [negb andb String.eqb Ascii.eqb Bool.eqb].
    change (String.eqb "panic" "panic") with true. cbn [andb].
    rewrite H1. cbn [values assign_ok]. rewrite H2. cbn [usable]. rewrite assignable_refl. cbn [andb].
    unfold call_statement. erewrite t_offsets_method; [reflexivity|done|apply (t_offs mt n); done|reflexivity|reflexivity|reflexivity].
Qed.

(** ** Fields *)
Lemma simple_ok nm g t fn k : has_upper nm = true -> 0 <= k < 2 ^ 29 -> (g, t) ∈ go_tys -> (forall x, g = GName x -> mem x (pkg_names ds) = false) ->
  zeropb_func ("Get" +:+ fn) = Some (getter t) -> zeropb_func ("Set" +:+ fn) = Some (setter t) ->
  forallb (decl_ok ds im) (simple_decls mt nm g fn k) = true.
Proof.
  intros Hnm Hk Hg Hgf HG HS. unfold simple_decls. cbn [forallb]. rewrite !andb_true_iff. split; [|split; [|done]].
  - eapply method_ok; try reflexivity; [done| |].
    + cbn [resolves]. rewrite (res_tys g t) by done. reflexivity.
    + cbn [map fst snd combine sizes fold_right size Nat.add stmts_ok].
      erewrite (t_get mt n); [|done|done|done|done|done|exact HG]. cbn [usable]. rewrite assignable_refl. done.
  - eapply method_ok; try reflexivity.
    + cbn [map snd resolves]. rewrite (res_tys g t) by done. reflexivity.
    + cbn [map fst snd combine sizes fold_right size Nat.add stmts_ok]. unfold call_statement.
      erewrite (t_set mt n); [reflexivity|done|done|done|done|done|exact HS|apply t_var; reflexivity|cbn [usable]; apply assignable_refl].
Qed.

Context (Hmw : forall x, x ∈ message_words -> mem x (pkg_names ds) = false).
Lemma free_w x : mem x message_words = true -> mem x (pkg_names ds) = false.
Proof using Hmw. intros H. apply Hmw, mem_In. done. Qed.

Context (t : string) (tn : Z) (Ht : find_type ds t = Some (struct_t tn)).
Context (HtE : find_method ds t "Encode" = Some (encode_decl t)) (HtD : find_method ds t "Decode" = Some (decode_decl t)).

Lemma sig_Decode : method_sig ds im t "Decode" = Some ([bytes_ty], [TU "error"]).
Proof. unfold method_sig. rewrite HtD. cbn [decode_decl map snd resolves]. rewrite res_bytes, (res_u "error") by done. done. Qed.
Lemma sig_Encode : method_sig ds im t "Encode" = Some ([], [bytes_ty]).
Proof. unfold method_sig. rewrite HtE. cbn [encode_decl map snd resolves]. rewrite res_bytes. done. Qed.

(** The common end of Message and Next: nil check and decoding into [v]. *)
Lemma tail_ok m Γ blk v :
  local Γ "buf" = Some bytes_ty -> local Γ "nil" = None -> local Γ "true" = None -> local Γ "false" = None ->
  local Γ v = Some (TPtr (TN t)) ->
  stmts_ok ds im (S (S (S m))) Γ blk [TU "bool"; TU "error"] [nil_check; SReturn [EId "true"; ECall (ESel (EId v) "Decode") [EId "buf"]]] = true.
Proof.
  intros Hb Hni Htr Hfa Hv. unfold nil_check. cbn [stmts_ok].
  assert (H1 : typeof ds im Γ (EId "buf") = Some (EV bytes_ty true)) by (apply t_var; done).
  assert (H2 : typeof ds im Γ (EId "nil") = Some ENil) by (apply t_nil; [done|apply free_w; done|done]).
  erewrite t_eqnil; [|exact H1|exact H2|reflexivity]. cbn [usable]. rewrite assignable_refl. cbn [andb].
  rewrite H2. rewrite !t_bool; try done; [|auto|apply free_w; done|auto|apply free_w; done].
  cbn [usable]. change (ty_eqb (TU "bool") (TU "bool")) with true. cbn [andb].
  change (nilable ds im (TU "error")) with true. cbn [andb].
  erewrite t_method; [| |left; eexists; apply t_var; exact Hv|eapply typeofs_cons; [exact H1|reflexivity]|apply sig_Decode|].
  - cbn [result usable]. rewrite assignable_refl. done.
  - intros p [= <-]. rewrite Hv. eauto.
  - cbn [usables usable]. rewrite assignable_refl. done.
Qed.

Lemma message_ok nm k : has_upper nm = true -> 0 <= k < 2 ^ 29 -> forallb (decl_ok ds im) (message_decls mt nm t k) = true.
Proof.
  intros Hnm Hk. unfold message_decls. cbn [forallb]. rewrite !andb_true_iff. split; [|split; [|done]].
  - eapply method_ok; try reflexivity; [done| | |].
    + cbn [map snd resolves]. erewrite res_ptr; [|eapply res_n; exact Ht]. reflexivity.
    + cbn [resolves]. rewrite (res_free "bool"), (res_u "error") by (done || (apply free_w; done)). reflexivity.
    + cbn [map fst snd combine sizes fold_right size Nat.add nil_check].
      apply (s_define _ _ _ _ _ bytes_ty false); [|done|done|apply (tail_ok 1); done].
      apply (t_get mt n); done.
  - eapply method_ok; try reflexivity.
    + cbn [map snd resolves]. erewrite res_n by exact Ht. reflexivity.
    + cbn [map fst snd combine sizes fold_right size Nat.add].
      apply (s_define _ _ _ _ _ bytes_ty false); [|done|done|].
      * change (EV bytes_ty false) with (result [bytes_ty]).
        eapply t_method; [|right; apply t_var; reflexivity|reflexivity|apply sig_Encode|done]. intros p [= <-]. eauto.
      * cbn [stmts_ok]. unfold call_statement.
        erewrite (t_set mt n); [reflexivity|done|done|done|done|done|reflexivity|apply t_var; reflexivity|cbn [usable]; apply assignable_refl].
Qed.

Lemma repeated_ok nm it k : has_upper nm = true -> 0 <= k < 2 ^ 29 -> find_type ds it = Some bytes_t -> has_upper it = true ->
  forallb (decl_ok ds im) (repeated_decls mt nm t it k) = true.
Proof.
  intros Hnm Hk Hit Hiu. unfold repeated_decls. cbn [forallb]. rewrite !andb_true_iff.
  assert (Hloc : local [("m", TPtr (TN mt))] it = None).
  { unfold local. cbn [find fst]. destruct (String.eqb_spec "m" it) as [<-|]; done. }
  split; [|split; [|split; [|split; [|done]]]].
  - cbn [decl_ok]. rewrite res_bytes. done.
  - eapply func_ok; try reflexivity; [exact Hit| | | |].
    + cbn [map snd resolves]. erewrite res_ptr; [|eapply res_n; exact Ht]. reflexivity.
    + cbn [resolves]. rewrite (res_free "bool"), (res_u "error") by (done || (apply free_w; done)). reflexivity.
    + cbn [map fst snd combine sizes fold_right size Nat.add nil_check].
      eapply s_var; [apply res_bytes|done|done|].
      set (Γ := [("buf", bytes_ty); ("i", TPtr (TN it)); ("m", TPtr (TN t))]).
      assert (Hi : typeof ds im Γ (EDeref (EId "i")) = Some (EV (TN it) true)) by (eapply t_deref, t_var; reflexivity).
      assert (Hb : typeof ds im Γ (EId "buf") = Some (EV bytes_ty true)) by (apply t_var; done).
      apply (s_assign _ _ _ _ (result [bytes_ty; bytes_ty]) [EV bytes_ty false; EV bytes_ty false]); [|reflexivity| |apply (tail_ok 1); done].
      * eapply t_zeropb; [done|apply free; done|done| |reflexivity|].
        -- eapply typeofs_cons; [exact Hi|]. eapply typeofs_cons; [apply t_int|reflexivity].
        -- cbn [usables usable]. unfold assignable at 1, same_underlying. rewrite (und_bytes it Hit).
           change (underlying ds im bytes_ty) with (Some bytes_ty). cbn match. rewrite ty_eqb_refl. cbn [named negb orb andb]. rewrite orb_true_r.
           unfold fits. change (String.eqb "int" "int") with true. assert (2 ^ 29 = 536870912) by done. assert (2 ^ 31 = 2147483648) by done. lia.
      * cbn [assign_ok]. rewrite Hi, Hb. cbn [usable]. rewrite assignable_refl. unfold assignable, same_underlying.
        rewrite (und_bytes it Hit). change (underlying ds im bytes_ty) with (Some bytes_ty). cbn match. rewrite ty_eqb_refl. cbn [named negb orb andb]. rewrite orb_true_r. done.
    + rewrite (und_bytes it Hit). done.
  - eapply method_ok; try reflexivity; [done| |].
    + cbn [resolves]. erewrite res_n by exact Hit. reflexivity.
    + cbn [map fst snd combine sizes fold_right size Nat.add stmts_ok].
      erewrite t_convert; [|done|exact Hit|apply (t_get mt n); done|].
      * cbn [usable]. rewrite assignable_refl. done.
      * unfold same_underlying. rewrite (und_bytes it Hit). change (underlying ds im bytes_ty) with (Some bytes_ty). cbn match. apply ty_eqb_refl.
  - eapply method_ok; try reflexivity.
    + cbn [map snd resolves]. erewrite res_n by exact Ht. reflexivity.
    + cbn [map fst snd combine sizes fold_right size Nat.add].
      apply (s_define _ _ _ _ _ bytes_ty false); [|done|done|].
      * change (EV bytes_ty false) with (result [bytes_ty]).
        eapply t_method; [|right; apply t_var; reflexivity|reflexivity|apply sig_Encode|done]. intros p [= <-]. eauto.
      * cbn [stmts_ok]. unfold call_statement.
        erewrite (t_set mt n); [reflexivity|done|done|done|done|done|reflexivity|apply t_var; reflexivity|cbn [usable]; apply assignable_refl].
Qed.
End message.
End check.

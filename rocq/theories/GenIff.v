(** * Acceptance is exactly the absence of clashes *)
From Verif Require Import Gen GoLang GoCheck GoCheckFacts GenSpec GenLex GenText GenNames GenAst GenFile GenCheck GenPkg GenNec.
From Coq Require Import ZifyBool.

Section inv.
Context (ds : list decl).
Notation im := ["zeropb"].
Context (Hz : "zeropb" ∉ pkg_names ds).

Lemma resolve_name x u : resolve ds im (GName x) = Some u -> u = TU x /\ x ∉ pkg_names ds \/ u = TN x.
Proof using.
  cbn [resolve]. destruct (mem x (pkg_names ds)) eqn:E.
  - destruct (find_type ds x); [|done]. intros [= <-]. auto.
  - destruct (mem x universe_types); [|done]. intros [= <-]. left. split; [done|]. apply mem_not. done.
Qed.
Lemma not_named x u : resolve ds im (GName x) = Some u -> assignable ds im (TU x) u = true -> x ∉ pkg_names ds.
Proof using.
  intros H1 H2. apply resolve_name in H1 as [[-> H]| ->]; [done|]. unfold assignable in H2. cbn [ty_eqb orb named negb andb] in H2.
  rewrite andb_false_r in H2. done.
Qed.
Lemma typeof_z Γ fn es v ps rs : local Γ "zeropb" = None -> zeropb_func fn = Some (ps, rs) ->
  typeof ds im Γ (ECall (ESel (EId "zeropb") fn) es) = Some v ->
  v = result rs /\ exists ts, typeofs ds im Γ es = Some ts /\ usables ds im ts ps = true.
Proof using Hz.
  intros H1 H2 H. rewrite typeof_call in H. cbn zeta in H. apply mem_not in Hz. rewrite H1, Hz in H.
  change (mem "zeropb" im && String.eqb "zeropb" "zeropb") with true in H. cbn match in H.
  destruct (typeofs ds im Γ es) as [ts|]; [|done]. rewrite H2 in H. unfold call in H.
  destruct (usables ds im ts ps) eqn:E; [|done]. injection H as <-. eauto.
Qed.
Lemma typeofs_inv Γ e es ts : typeofs ds im Γ (e :: es) = Some ts ->
  exists t us, ts = t :: us /\ typeof ds im Γ e = Some t /\ typeofs ds im Γ es = Some us.
Proof using.
  intros H. change (typeofs ds im Γ (e :: es)) with (match typeof ds im Γ e, typeofs ds im Γ es with Some t, Some ts => Some (t :: ts) | _, _ => None end) in H.
  destruct (typeof ds im Γ e) as [t|]; [|done]. destruct (typeofs ds im Γ es) as [us|]; [|done]. injection H as <-. eauto.
Qed.
Lemma assignable_plain t u : named t = false -> named u = false -> underlying ds im t = Some t -> underlying ds im u = Some u ->
  assignable ds im t u = true -> t = u.
Proof using.
  intros N1 N2 U1 U2. unfold assignable, same_underlying. rewrite U1, U2, N1, N2. cbn [negb orb]. rewrite andb_true_r, orb_diag. apply ty_eqb_eq.
Qed.

Section msg.
Context (mt : string) (n : Z) (Γ : list (string * ty)).
Context (Hmt : find_type ds mt = Some (struct_t n)).
Context (Hm : local Γ "m" = Some (TPtr (TN mt))) (Hlz : local Γ "zeropb" = None).

Lemma fields_inv fs : fields_of ds im (TN mt) = Some fs ->
  exists b u k v, resolve ds im (GName "byte") = Some b /\ resolve ds im (GName "uint16") = Some u /\
    resolve ds im (GName "int") = Some (TU k) /\ resolve ds im (GName "uint64") = Some v /\
    fs = [("buf", TSlice b); ("offsets", TStruct [("a", TArr n u); ("m", TMap (TU k) v)])].
Proof using Hmt.
  unfold fields_of, underlying. rewrite Hmt. unfold struct_t, bytes_t.
  set (g1 := GName "byte"). set (g2 := GName "uint16"). set (g3 := GName "int"). set (g4 := GName "uint64"). clearbody g1 g2 g3 g4.
  cbn [resolve]. destruct (resolve ds im g1) as [b|]; [|done]. destruct (resolve ds im g2) as [u|]; [|done].
  destruct (0 <=? n); [|done]. destruct (resolve ds im g3) as [k|]; [|done].
  destruct (resolve ds im g4) as [v|]; [|destruct k; done]. destruct k; try done.
  cbn. intros [= <-]. eauto 10.
Qed.
Lemma mbuf_inv v : typeof ds im Γ mbuf_e = Some v -> exists b, resolve ds im (GName "byte") = Some b /\ v = EV (TSlice b) true.
Proof using Hmt Hm.
  unfold mbuf_e. intros H. cbn [typeof] in H. rewrite Hm in H.
  destruct (fields_of ds im (TN mt)) as [fs|] eqn:E; [|done]. apply fields_inv in E as (b & u & k & w & E1 & E2 & E3 & E4 & ->).
  cbn in H. injection H as <-. eauto.
Qed.
Lemma offs_inv v : typeof ds im Γ offs = Some v -> v = EV (TZ "Offsets") false /\
  "uint16" ∉ pkg_names ds /\ "int" ∉ pkg_names ds /\ "uint64" ∉ pkg_names ds.
Proof using Hmt Hm Hlz Hz.
  intros H. unfold offs in H. apply (typeof_z _ _ _ _ [TSlice (TU "uint16"); TPtr (TMap (TU "int") (TU "uint64"))] [TZ "Offsets"]) in H as (-> & ts & H & Hu); [|done|done].
  split; [done|].
  apply typeofs_inv in H as (t1 & us & -> & H1 & H). apply typeofs_inv in H as (t2 & us' & -> & H2 & _).
  cbn [typeof] in H1, H2. rewrite Hm in H1, H2.
  destruct (fields_of ds im (TN mt)) as [fs|] eqn:E; [|done]. apply fields_inv in E as (b & u & k & w & E1 & E2 & E3 & E4 & ->).
  cbn in H1, H2. injection H1 as <-. injection H2 as <-. cbn [usables usable] in Hu.
  apply andb_true_iff in Hu as [Hu1 Hu]. apply andb_true_iff in Hu as [Hu2 _].
  apply assignable_plain in Hu1; [|done..]. apply assignable_plain in Hu2; [|done..]. injection Hu1 as ->. injection Hu2 as -> ->.
  split_and!.
  - apply resolve_name in E2 as [[_ ?]|?]; done.
  - apply resolve_name in E3 as [[_ ?]|?]; done.
  - apply resolve_name in E4 as [[_ ?]|?]; done.
Qed.
End msg.

Lemma return1_inv n Γ blk rs e ss : stmts_ok ds im (S n) Γ blk rs (SReturn [e] :: ss) = true ->
  exists v t, rs = [t] /\ typeof ds im Γ e = Some v /\ usable ds im v t = true.
Proof using.
  cbn [stmts_ok]. destruct rs as [|t rs]; [done|]. destruct (typeof ds im Γ e) as [v|]; [|done].
  destruct rs as [|]; [|rewrite andb_false_r; done]. rewrite andb_true_r. intros H. apply andb_true_iff in H as [H _]. eauto.
Qed.
Lemma return2_inv n Γ blk t1 t2 e1 e2 ss : stmts_ok ds im (S n) Γ blk [t1; t2] (SReturn [e1; e2] :: ss) = true ->
  exists v1 v2, typeof ds im Γ e1 = Some v1 /\ usable ds im v1 t1 = true /\ typeof ds im Γ e2 = Some v2 /\ usable ds im v2 t2 = true.
Proof using.
  cbn [stmts_ok]. destruct (typeof ds im Γ e1) as [v1|]; [|done]. destruct (typeof ds im Γ e2) as [v2|]; [|rewrite andb_false_r; done].
  rewrite !andb_true_iff. intros [[? [? _]] _]. eauto 8.
Qed.

(** Decode: byte, error and the types of the offsets. *)
Lemma decode_words mt n : find_type ds mt = Some (struct_t n) -> decl_ok ds im (decode_decl mt) = true ->
  "byte" ∉ pkg_names ds /\ "error" ∉ pkg_names ds /\ "uint16" ∉ pkg_names ds /\ "int" ∉ pkg_names ds /\ "uint64" ∉ pkg_names ds.
Proof using Hz.
  intros Hmt H. apply func_inv in H as (pts & rts & Hp & Hr & H). cbn [map snd fst] in *.
  cbn [resolves] in Hr. destruct (resolve ds im (GName "error")) as [te|] eqn:Ee; [|done]. injection Hr as <-.
  cbn [sizes fold_right size Nat.add] in H. apply s_assign_inv in H as (_ & H). apply return1_inv in H as (v & t & [= <-] & H & Hu).
  cbn [resolves] in Hp. destruct (resolve ds im bytes_t) as [tb|]; [|done]. injection Hp as <-. cbn [combine] in H.
  apply (typeof_z _ _ _ _ [bytes_ty; TZ "Offsets"; TZ "RepeatedFields"] [TU "error"]) in H as (-> & ts & H & Hus); [|done|done].
  cbn [result usable] in Hu.
  apply typeofs_inv in H as (t1 & us & -> & H1 & H). apply typeofs_inv in H as (t2 & us' & -> & H2 & _).
  apply (mbuf_inv mt n _ Hmt) in H1 as (b & Eb & ->); [|done].
  apply (offs_inv mt n _ Hmt) in H2 as (_ & H2); [|done|done].
  cbn [usables usable] in Hus. apply andb_true_iff in Hus as [Hus _]. apply assignable_plain in Hus; [|done..]. injection Hus as ->.
  split; [apply resolve_name in Eb as [[_ ?]|?]; done|]. split; [|exact H2]. eapply not_named; done.
Qed.
(** A getter: its type. *)
Lemma getter_word mt nm x fn k : zeropb_func ("Get" +:+ fn) = Some (getter (TU x)) ->
  decl_ok ds im (List.nth 0 (simple_decls mt nm (GName x) fn k) (DType "" bytes_t)) = true -> x ∉ pkg_names ds.
Proof using Hz.
  intros Hf H. cbn [List.nth simple_decls] in H. apply func_inv in H as (pts & rts & Hp & Hr & H). cbn [map snd fst] in *.
  cbn [resolves] in Hp. injection Hp as <-. cbn [resolves] in Hr. destruct (resolve ds im (GName x)) as [te|] eqn:Ee; [|done]. injection Hr as <-.
  cbn [sizes fold_right size Nat.add combine] in H. apply return1_inv in H as (v & t & [= <-] & H & Hu).
  apply (typeof_z _ _ _ _ [bytes_ty; TZ "Offsets"; TU "int"] [TU x]) in H as (-> & _); [|done|exact Hf].
  cbn [result usable] in Hu. eapply not_named; done.
Qed.
(** The results of Message and Next. *)
Lemma bool_word n Γ blk rs tail : local Γ "true" = None -> local Γ "false" = None -> find_set ds "false" = None -> "false" ∉ pkg_names ds ->
  resolves ds im [GName "bool"; GName "error"] = Some rs ->
  stmts_ok ds im (S (S n)) Γ blk rs (nil_check :: tail) = true -> "bool" ∉ pkg_names ds.
Proof using.
  intros L1 L2 S1 F1 Hr H. cbn [resolves] in Hr. destruct (resolve ds im (GName "bool")) as [tb|] eqn:Eb; [|done].
  destruct (resolve ds im (GName "error")) as [te|] eqn:Ee; [|done]. injection Hr as <-.
  unfold nil_check in H. apply s_if_inv in H as (_ & H & _). apply return2_inv in H as (v1 & v2 & H1 & Hu & _ & _).
  cbn [typeof] in H1. apply mem_not in F1. rewrite L2, F1 in H1. cbn in H1. injection H1 as <-. cbn [usable] in Hu.
  apply resolve_name in Eb as [[_ ?]| ->]; [done|]. apply ty_eqb_eq in Hu. done.
Qed.
End inv.

Section accepted.
Context (fs : list file) (Hgood : Forall good_file fs) (Hok : package_ok (map file_ast fs) = true).
Notation D := (pkg_decls fs).

Lemma ok_zeropb : "zeropb" ∉ pkg_names D.
Proof using Hok Hgood.
  destruct (ok_parts fs Hgood Hok) as (_ & _ & _ & _ & Hne & _). destruct fs as [|f l]; [done|].
  apply (ok_file (f :: l) Hgood Hok f). apply elem_of_list_here.
Qed.
Lemma ok_some : exists d, d ∈ messages fs.
Proof using Hok Hgood.
  destruct (ok_parts fs Hgood Hok) as (_ & _ & _ & _ & Hne & _). destruct fs as [|f l]; [done|].
  destruct (ok_file (f :: l) Hgood Hok f) as (_ & Hs & _); [apply elem_of_list_here|].
  destruct (somes (fl_messages f)) as [|d r] eqn:E; [done|]. exists d. unfold messages. cbn [map List.concat]. rewrite E. apply elem_of_list_here.
Qed.
Lemma ok_type d : d ∈ messages fs -> find_type D (mname d) = Some (struct_t (array_len d)).
Proof using Hok Hgood. intros Hd. apply pkg_type; [|done]. apply (ok_nd fs Hgood Hok). Qed.

Lemma ok_always x : x ∈ always -> x ∉ pkg_names D.
Proof using Hok Hgood.
  intros Hx. destruct ok_some as (d & Hd).
  destruct (decode_words D ok_zeropb (mname d) _ (ok_type d Hd)) as (W1 & W2 & W3 & W4 & W5).
  { apply (ok_decl fs Hgood Hok d); [done|]. in_header. }
  destruct (ok_parts fs Hgood Hok) as (_ & _ & P1 & P2 & _).
  assert (W6 := ok_zeropb). assert (W7 := ok_len fs Hgood Hok d Hd). assert (W8 := ok_panic fs Hgood Hok d Hd).
  unfold always in Hx. repeat (apply elem_of_cons in Hx as [->|Hx]; [assumption|]). apply elem_of_nil in Hx. done.
Qed.
Lemma ok_message_words d f x : d ∈ messages fs -> f ∈ d_fields d -> f <> None -> getType f = 11 -> x ∈ message_words -> x ∉ pkg_names D.
Proof using Hok Hgood.
  intros Hd Hf Hne Hty Hx. destruct (ok_message_field fs Hgood Hok d f Hd Hf Hne Hty) as (W1 & W2 & W3 & _).
  assert (S3 := set_none fs "false" Hgood eq_refl).
  assert (W4 : "bool" ∉ pkg_names D).
  { assert (Hgd := pkg_good fs Hgood d Hd). destruct Hgd as [_ Hfs]. rewrite Forall_forall in Hfs.
    destruct (good_cases f (Hfs f Hf)) as [->|(_ & Hn & Hk & C)]; [done|]. set (t := base_name (getTypeName f)) in *.
    destruct C as [(_ & _ & _ & E)|[(_ & Hx' & _)|[(_ & _ & _ & E)|(_ & Hx' & _)]]].
    - assert (H : decl_ok D ["zeropb"] (List.nth 0 (message_decls (mname d) (camel (getName f)) t (getNumber f)) (DType "" bytes_t)) = true).
      { apply (ok_decl fs Hgood Hok d); [done|]. apply (field_in d f); [done|]. rewrite E. apply elem_of_list_here. }
      cbn [List.nth message_decls] in H. apply func_inv in H as (pts & rts & Hp & Hr & H).
      cbn [map snd resolves] in Hp. destruct (resolve D ["zeropb"] (GPtr (GName t))) as [pt|]; [|done]. injection Hp as <-.
      cbn [map fst sizes fold_right size Nat.add combine] in H. apply s_define_inv in H as (tb & ab & _ & H).
      eapply bool_word; [| | | |exact Hr|exact H]; done.
    - rewrite Hty in Hx'. destruct Hx'; done.
    - assert (H : decl_ok D ["zeropb"] (List.nth 1 (repeated_decls (mname d) (camel (getName f)) t (mname d +:+ t +:+ "Iterator") (getNumber f)) (DType "" bytes_t)) = true).
      { apply (ok_decl fs Hgood Hok d); [done|]. apply (field_in d f); [done|]. rewrite E. apply elem_of_list_further, elem_of_list_here. }
      cbn [List.nth repeated_decls] in H. apply func_inv in H as (pts & rts & Hp & Hr & H).
      cbn [map snd resolves] in Hp. destruct (resolve D ["zeropb"] (GPtr (GName t))) as [pt|]; [|done]. injection Hp as <-.
      cbn [map fst sizes fold_right size Nat.add combine] in H.
      apply s_var_inv in H as (tb & _ & H). apply s_assign_inv in H as (_ & H).
      eapply bool_word; [| | | |exact Hr|exact H]; done.
    - rewrite Hty in Hx'. destruct Hx'; done. }
  unfold message_words in Hx. repeat (apply elem_of_cons in Hx as [->|Hx]; [assumption|]). apply elem_of_nil in Hx. done.
Qed.
Lemma ok_simple_word d f T x : d ∈ messages fs -> f ∈ d_fields d -> f <> None -> single f -> declared_type (getType f) = Some (T, GName x) ->
  x ∉ pkg_names D.
Proof using Hok Hgood.
  intros Hd Hf Hne Hs HT. assert (Hgd := pkg_good fs Hgood d Hd). destruct Hgd as [_ Hfs]. rewrite Forall_forall in Hfs.
  destruct (good_cases f (Hfs f Hf)) as [->|(_ & Hn & Hk & C)]; [done|].
  destruct C as [(_ & Hty & _ & E)|[(_ & Hx' & ty & fn & Efn & E)|[(Hr & _ & _ & E)|(Hr & _ & _ & E)]]].
  - rewrite Hty in HT. done.
  - destruct (simple_types _ Hx') as (ty' & fn' & u & Efn' & Hu & HG & _). rewrite Efn in Efn'. injection Efn' as <- <-.
    assert (Eg : go_type (getType f) = GName x) by (unfold go_type; rewrite HT; done). rewrite Eg in *.
    assert (u = TU x) as ->.
    { unfold go_tys in Hu. cbn [map] in Hu. apply elem_of_cons in Hu as [Hu|Hu]; [done|].
      repeat (apply elem_of_cons in Hu as [Hu|Hu]; [injection Hu as -> ->; done|]). apply elem_of_nil in Hu. done. }
    eapply (getter_word D ok_zeropb (mname d)); [exact HG|].
    apply (ok_decl fs Hgood Hok d); [done|]. apply (field_in d f); [done|]. rewrite E. apply elem_of_list_here.
  - unfold single, repeated in *. lia.
  - unfold single, repeated in *. lia.
Qed.

Theorem ok_clash_free : clash_free fs.
Proof using Hok Hgood.
  destruct (ok_parts fs Hgood Hok) as (P1 & P2 & _ & _ & P5 & P6 & _).
  assert (Hnm := names_package fs Hgood).
  split.
  - split; [done|]. apply Forall_forall. intros f Hf. apply (ok_file fs Hgood Hok f Hf).
  - exact P6.
  - apply Forall_forall. intros f Hf. split; apply (ok_file fs Hgood Hok f Hf).
  - rewrite <- Hnm. exact P1.
  - intros x Hx. rewrite <- Hnm in Hx. intros [Ha|(d & f & Hd & Hf & Hne & [[H1 H2]|(H1 & T & H2)])].
    + exact (ok_always x Ha Hx).
    + exact (ok_message_words d f x Hd Hf Hne H1 H2 Hx).
    + exact (ok_simple_word d f T x Hd Hf Hne H1 H2 Hx).
  - apply keys_nodup; [done| |done]. rewrite <- Hnm. exact P1.
  - intros d f Hd Hf Hne Ht. destruct (ok_message_field fs Hgood Hok d f Hd Hf Hne Ht) as (_ & _ & _ & d' & Hd' & E).
    apply elem_of_list_fmap. exists d'. done.
  - apply Forall_forall. intros d Hd. apply (ok_keys fs Hgood Hok d Hd).
Qed.
End accepted.

Theorem clash_free_iff fs : Forall good_file fs -> package_ok (map file_ast fs) = true <-> clash_free fs.
Proof. intros H. split; [apply ok_clash_free; done|apply clash_free_ok; done]. Qed.

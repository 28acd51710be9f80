(** * Theorems C37-C43, C45: the code generator *)
From Verif Require Import Gen GoLang Spec Api GenSpec GenApi GoSem GoCheck GenClient.
From Verif Require Import GoCheckFacts GenNames GenText GenAst GenFile GenCheck GenPkg GenNec GenIff GenRun GenE2E GenMisc GenReplace Golden P_Value Demo.

(** A file with every kind of field, used beside the theorems. *)
Definition mkF (name : string) (number label type : Z) (tn : string) : option field :=
  Some (mkField (Some name) (Some number) (Some label) (Some type) (if String.eqb tn "" then None else Some tn)).
Definition inner_d : descriptor := mkDesc (Some "Inner") [mkF "id" 1 1 5 ""; mkF "payload" 3 2 12 ""].
Definition outer_d : descriptor := mkDesc (Some "Outer") [
  mkF "my_count" 1 1 17 ""; mkF "title" 2 1 9 ""; mkF "inner" 3 1 11 ".demo.Inner"; None;
  mkF "items" 5 3 11 ".demo.Inner"; mkF "scores" 6 3 3 ""].
Definition demo_file : file := mkFile (Some "demo.proto") (Some "demo") [Some inner_d; None; Some outer_d].

Ltac comp := vm_compute; split_and!; first [reflexivity|discriminate|exact I].
Ltac good_field :=
  first [left; reflexivity
        |right; split; [comp|]; split; [comp|];
         split; [first [left; left; reflexivity|left; right; reflexivity|right; reflexivity]|];
         first [right; vm_compute; eexists; reflexivity
               |left; eexists; split; [split; [reflexivity|apply last_component_split]|comp]]].
Ltac good_files :=
  repeat (constructor; [split; [comp|];
    repeat (constructor; [first [exact I|split; [comp|]; repeat (constructor; [good_field|]); constructor]|]); constructor|]); constructor.
Lemma demo_good : Forall good_file [demo_file].
Proof. good_files. Qed.
(** The syntax tree of the text generated for it. *)
Definition parsed (f : file) : gofile :=
  match generateFile f with Ok (_, c) => default (mkGoFile "" [] []) (parse c) | _ => mkGoFile "" [] [] end.
Definition demo_go : list gofile := Eval vm_compute in [parsed demo_file].
Lemma demo_generated : generated [demo_file] demo_go.
Proof. constructor; [|constructor]. eexists _, _. split; [vm_compute; reflexivity|vm_compute; reflexivity]. Qed.
Lemma demo_ok : package_ok demo_go = true.
Proof. vm_compute. reflexivity. Qed.

(** The model of the generator reproduces the golden files of the repository
    (a test of the model, not a theorem about it). *)
Example golden_test : Generate test_request = Ok [("test.zeropb.go", test_output)].
Proof. vm_compute. reflexivity. Qed.
Example golden_raft : Generate raft_request = Ok [("raft.zeropb.go", raft_output)].
Proof. vm_compute. reflexivity. Qed.

(** C37.  In the generated text every message is declared as a struct whose array is
    longer than every field number of the message. *)
Theorem C37_array fs gs d :
  Forall good_file fs -> generated fs gs -> d ∈ messages fs ->
  exists n,
    DType (mname d) (GStruct [("buf", GSlice (GName "byte"));
      ("offsets", GStruct [("a", GArr n (GName "uint16")); ("m", GMapOf (GName "int") (GName "uint64"))])]) ∈ decls gs /\
    forall f, f ∈ d_fields d -> getNumber f < n.
Proof.
  intros H1 H2 Hd. exists (array_len d). split.
  - rewrite (acc_decls fs gs H1 H2). apply (message_decl_in fs d); [done|]. in_header.
  - intros f Hf. assert (Hg := pkg_good fs H1 d Hd). destruct (mtype_is d Hg) as (M & _). rewrite <- (proj1 (alen_of d Hg)). auto.
Qed.
(** So the index of an accessor is in range, for every struct of the type. *)
Theorem C37_in_range fs gs d m f v :
  Forall good_file fs -> generated fs gs -> package_ok gs = true -> d ∈ messages fs ->
  zero_obj (decls gs) (mname d) = Some (OMsg (mname d) (msg_zero (mtype_of d))) /\
  (of_type (mtype_of d) m -> Some f ∈ d_fields d ->
   (exists x, offsets_get (moff m) (getNumber (Some f)) = Ok x) /\ (exists o, offsets_set (moff m) (getNumber (Some f)) v = Ok o)).
Proof.
  intros H1 H2 H3 Hd. split; [apply (acc_zero fs gs); done|]. intros Hm Hf.
  assert (Hg := pkg_good fs H1 d Hd). destruct (mtype_is d Hg) as (M & _). specialize (M _ Hf).
  destruct (field_good d f Hg Hf) as (_ & Hn & _). unfold of_type in Hm. rewrite <- Hm in M.
  unfold zlen in *. set (k := getNumber (Some f)) in *. destruct (moff m) as [a mp]. cbn [oa] in M.
  assert (Hin : (0 <=? k) && (k <? zlen a) = true) by (unfold zlen; lia).
  assert (Hlk : exists x, a !! Z.to_nat k = Some x) by (apply lookup_lt_is_Some_2; lia). destruct Hlk as [x Hx].
  unfold offsets_get, offsets_set, arr_get, arr_set. cbn [oa om]. rewrite !Hin, !Hx. cbn [rbind].
  split; [destruct (negb _); eexists; reflexivity|]. destruct (v <=? offsetMaxInArray); eexists; reflexivity.
Qed.

Example C37_case :
  Forall good_file [demo_file] /\ generated [demo_file] demo_go /\ package_ok demo_go = true /\ outer_d ∈ messages [demo_file] /\
  alen (mtype_of outer_d) = 7%nat.
Proof.
  split; [exact demo_good|]. split; [exact demo_generated|]. split; [exact demo_ok|]. split; [|reflexivity].
  apply elem_of_list_further, elem_of_list_here.
Qed.

(** C38.  In an accepted package the getter and the setter of a single field of a
    simple type have the Go type of the declared type in their signatures and are
    the Get and Set of its codec, at the same number. *)
Theorem C38_codec fs gs d f T g :
  Forall good_file fs -> generated fs gs -> package_ok gs = true -> d ∈ messages fs -> Some f ∈ d_fields d ->
  single (Some f) -> declared_type (getType (Some f)) = Some (T, g) ->
  (exists b1 b2,
    find_method (decls gs) (mname d) (camel (getName (Some f))) =
      Some (DFunc "m" (GPtr (GName (mname d))) (camel (getName (Some f))) [] [g] b1) /\
    find_method (decls gs) (mname d) ("Set" +:+ camel (getName (Some f))) =
      Some (DFunc "m" (GPtr (GName (mname d))) ("Set" +:+ camel (getName (Some f))) [("x", g)] [] b2)) /\
  forall n σ l m v, σ !! l = Some (OMsg (mname d) m) ->
    invoke (decls gs) (20 + n) σ l (camel (getName (Some f))) [] =
      (let* v := m_get T m (getNumber (Some f)) in Ok ([GP v], σ)) /\
    invoke (decls gs) (20 + n) σ l ("Set" +:+ camel (getName (Some f))) [GP v] =
      (let* m' := m_set T m (getNumber (Some f)) v in Ok ([], <[l := OMsg (mname d) m']> σ)).
Proof.
  intros H1 H2 H3 Hd Hf Hs HT. split.
  - destruct (acc_simple fs gs H1 H2 H3 d Hd (Some f) Hf ltac:(done) T g Hs HT) as (fn & _ & E1 & E2).
    eexists _, _. split; [exact E1|exact E2].
  - intros n σ l m v Hl. assert (Hne : Some f <> None) by done.
    split; [apply (acc_get fs gs H1 H2 H3 d Hd (Some f) Hf Hne T g); done|apply (acc_set fs gs H1 H2 H3 d Hd (Some f) Hf Hne T g); done].
Qed.
(** The accessors of a single field of message type. *)
Theorem C38_message fs gs d f :
  Forall good_file fs -> generated fs gs -> package_ok gs = true -> d ∈ messages fs -> Some f ∈ d_fields d ->
  single (Some f) -> getType (Some f) = 11 ->
  exists d', d' ∈ messages fs /\ base_name (getTypeName (Some f)) = mname d' /\
  forall n σ l l' m x, σ !! l = Some (OMsg (mname d) m) -> σ !! l' = Some (OMsg (mname d') x) ->
    invoke (decls gs) (40 + n) σ l (camel (getName (Some f))) [GObj l'] =
      (let* (ok, err, x') := m_Message (mtype_of d') m (getNumber (Some f)) x in
       Ok ([GP (VBool ok); GErr err], <[l' := OMsg (mname d') x']> σ)) /\
    invoke (decls gs) (40 + n) σ l ("Set" +:+ camel (getName (Some f))) [GObj l'] =
      (let* m' := m_set PBytes m (getNumber (Some f)) (VBytes (Some (m_Encode x))) in
       Ok ([], <[l := OMsg (mname d) m']> (<[fresh (dom σ) := OMsg (mname d') x]> σ))).
Proof.
  intros H1 H2 H3 Hd Hf Hs Ht.
  destruct (acc_child fs gs H1 H2 H3 d Hd (Some f) Hf ltac:(done) Ht) as (d' & Hd' & E). exists d'. split; [done|]. split; [done|].
  intros n σ l l' m x Hl Hl'. assert (Hne : Some f <> None) by done.
  split; [apply (acc_Message fs gs H1 H2 H3 d d' Hd Hd' (Some f) Hf Hne Ht E); done|].
  apply (acc_SetMessage fs gs H1 H2 H3 d d' Hd Hd' (Some f) Hf Hne Ht E); done.
Qed.
(** The generator refuses (panics on) exactly the files with a single field whose type
    is neither message nor simple; among the types of protobuf that is the group. *)
Theorem C38_refuses f :
  (generateFile f = Panic <-> unsupported_file f) /\
  (forall d x, d ∈ somes (fl_messages f) -> x ∈ d_fields d -> unsupported_field x -> 1 <= getType x <= 18 -> getType x = 10).
Proof.
  split.
  - destruct (file_dich f) as [(H & c & E)|(H & E)]; rewrite E; split; done.
  - intros d x _ _ (_ & _ & Hne & Hn) Hr. clear -Hne Hn Hr.
    assert (H : getType x ∈ [1;2;3;4;5;6;7;8;9;10;11;12;13;14;15;16;17;18]) by (rewrite !elem_of_cons, elem_of_nil; lia).
    repeat (apply elem_of_cons in H as [H|H]; [rewrite H in *; first [done|discriminate Hn|exfalso; apply Hne; reflexivity]|]).
    apply elem_of_nil in H. done.
Qed.

Example C38_case :
  mkF "my_count" 1 1 17 "" ∈ d_fields outer_d /\ single (mkF "my_count" 1 1 17 "") /\ declared_type 17 = Some (PSint32, GName "int32") /\
  camel "my_count" = "MyCount" /\ single (mkF "inner" 3 1 11 ".demo.Inner") /\ base_name ".demo.Inner" = "Inner" /\
  unsupported_file (mkFile None None [Some (mkDesc (Some "G") [mkF "g" 1 1 10 ""])]).
Proof.
  split; [apply elem_of_list_here|]. split; [left; reflexivity|]. split; [reflexivity|]. split; [reflexivity|].
  split; [left; reflexivity|]. split; [reflexivity|].
  eexists _, _. split; [apply elem_of_list_here|]. split; [apply elem_of_list_here|]. split; [done|]. split; [left; reflexivity|done].
Qed.

(** C39.  The table holds the numbers of exactly the repeated fields, and it is the
    table Decode uses. *)
Theorem C39_table fs gs d :
  Forall good_file fs -> generated fs gs -> d ∈ messages fs ->
  exists ks, DSet ("repeatedFields_" +:+ mname d) (GQual "zeropb" "RepeatedFields") ks ∈ decls gs /\
    forall k, k ∈ ks <-> exists f, f ∈ d_fields d /\ repeated f /\ getNumber f = k.
Proof.
  intros H1 H2 Hd. exists (reps (mtype_of d)). split.
  - rewrite (acc_decls fs gs H1 H2). apply (pkg_table fs d Hd).
  - intros k. rewrite elem_of_list_In. apply (mtype_is d (pkg_good fs H1 d Hd)).
Qed.
Theorem C39_decode fs gs d n σ l m b :
  Forall good_file fs -> generated fs gs -> package_ok gs = true -> d ∈ messages fs -> σ !! l = Some (OMsg (mname d) m) ->
  exists ks, NoDup ks /\ (forall k, k ∈ ks <-> exists f, f ∈ d_fields d /\ repeated f /\ getNumber f = k) /\
  invoke (decls gs) (20 + n) σ l "Decode" [GP (VBytes b)] =
    let* (err, m') := m_Decode (mkMtype (alen (mtype_of d)) ks) m (default [] b) in Ok ([GErr err], <[l := OMsg (mname d) m']> σ).
Proof.
  intros H1 H2 H3 Hd Hl. exists (reps (mtype_of d)). split; [|split].
  - apply (ok_keys fs H1); [apply (acc_ok fs gs); done|done].
  - intros k. rewrite elem_of_list_In. apply (mtype_is d (pkg_good fs H1 d Hd)).
  - rewrite (acc_Decode fs gs H1 H2 H3 d Hd n σ l m b Hl). done.
Qed.
Example C39_case : reps (mtype_of outer_d) = [5; 6] /\ reps (mtype_of inner_d) = [].
Proof. split; reflexivity. Qed.

(** C40.  The claim that distinct field names suffice is false (below).  What holds:
    the generated text is always a Go file, and the package compiles exactly when
    the Go names do not clash ([clash_free], GenSpec.v). *)
Theorem C40_compiles_iff_partial fs :
  Forall good_file fs ->
  exists gs, generated fs gs /\ (package_ok gs = true <-> clash_free fs).
Proof.
  intros H. exists (map file_ast fs). split; [apply generated_exists; done|]. apply clash_free_iff. done.
Qed.
Example C40_case : clash_free [demo_file].
Proof. apply clash_free_iff; [exact demo_good|]. vm_compute. reflexivity. Qed.

(** Messages with different names, fields of a message with different names and
    numbers. *)
Definition distinct_input (fs : list file) : Prop :=
  NoDup (map mname (messages fs)) /\
  Forall (fun d => NoDup (map (fun f => getName (Some f)) (somes (d_fields d))) /\ distinct_numbers d) (messages fs).
Definition one_file (ds : list descriptor) : file := mkFile (Some "p.proto") (Some "p") (map Some ds).
Definition small (name : string) : descriptor := mkDesc (Some name) [mkF "x" 1 1 5 ""].
Definition clashes : list file := [
  (* two repeated fields of the same message type: the iterator is declared twice *)
  one_file [small "T"; mkDesc (Some "M") [mkF "a" 1 3 11 ".p.T"; mkF "b" 2 3 11 ".p.T"]];
  (* the same Go name for two field names *)
  one_file [mkDesc (Some "M") [mkF "foo_bar" 1 1 5 ""; mkF "fooBar" 2 1 5 ""]];
  (* a field named like a fixed method *)
  one_file [mkDesc (Some "M") [mkF "encode" 1 1 5 ""]];
  one_file [mkDesc (Some "M") [mkF "reset" 1 1 5 ""]];
  (* the setter of one field is the getter of another *)
  one_file [mkDesc (Some "M") [mkF "foo" 1 1 5 ""; mkF "set_foo" 2 1 5 ""]];
  one_file [small "T"; mkDesc (Some "M") [mkF "foo" 1 3 11 ".p.T"; mkF "append_to_foo" 2 1 5 ""]];
  (* a message named like something the generated code refers to *)
  one_file [small "error"]; one_file [small "zeropb"]; one_file [small "int32"]; one_file [small "len"];
  (* a message named like a generated variable or iterator *)
  one_file [small "Foo"; small "repeatedFields_Foo"];
  one_file [small "T"; small "MTIterator"; mkDesc (Some "M") [mkF "a" 1 3 11 ".p.T"]];
  (* no message: the import is not used *)
  one_file [];
  (* a nested or imported message type is not declared *)
  one_file [mkDesc (Some "M") [mkF "a" 1 1 11 ".p.M.Nested"]];
  one_file [mkDesc (Some "M") [mkF "a" 1 1 11 ".google.protobuf.Timestamp"]]].
Lemma one_good f : Forall good_file [f] -> good_file f.
Proof. intros H. inversion H; done. Qed.
Lemma one_rejected f :
  match generateFile f with
  | Ok (_, c) => match parse c with Some g => package_ok [g] | None => true end
  | _ => true
  end = false -> exists gs, generated [f] gs /\ package_ok gs = false.
Proof.
  destruct (generateFile f) as [[nm c]| | |] eqn:E1; try done. destruct (parse c) as [g|] eqn:E2; [|done].
  intros H. exists [g]. split; [|done]. constructor; [eauto|constructor].
Qed.
Theorem C40_clashes_refuted :
  Forall (fun f => good_file f /\ distinct_input [f] /\ exists gs, generated [f] gs /\ package_ok gs = false) clashes.
Proof.
  repeat (apply Forall_cons; split;
    [split; [apply one_good; good_files|];
     split; [split; [apply distinct_strings; vm_compute; reflexivity|
       repeat (apply Forall_cons; split; [split; [apply distinct_strings|apply distinct_Z]; vm_compute; reflexivity|]); apply Forall_nil; exact I]|];
     apply one_rejected; vm_compute; reflexivity|]).
  apply Forall_nil; exact I.
Qed.
(** Names that do not even give a Go file: a dotted or missing package, a field name
    whose first word is a number. *)
Lemma one_unparsed f :
  match generateFile f with Ok (_, c) => match parse c with Some _ => false | None => true end | _ => false end = true ->
  exists name c, generateFile f = Ok (name, c) /\ parse c = None.
Proof. destruct (generateFile f) as [[nm c]| | |] eqn:E1; try done. destruct (parse c) eqn:E2; [done|]. eauto. Qed.
Theorem C40_not_go_refuted :
  Forall (fun f => exists name c, generateFile f = Ok (name, c) /\ parse c = None)
    [mkFile (Some "p.proto") (Some "my.pkg") [Some (small "T")]; mkFile (Some "p.proto") None [Some (small "T")];
     one_file [mkDesc (Some "M") [mkF "_1" 1 1 5 ""]]; one_file [mkDesc (Some "M") [mkF "_" 1 1 5 ""]];
     one_file [small "type"]].
Proof. repeat (apply Forall_cons; split; [apply one_unparsed; vm_compute; reflexivity|]). apply Forall_nil. exact I. Qed.

(** C41.  There are functions from a descriptor to the content of its file such that
    the response to every request is one file per requested non-nil descriptor, in
    the order of the request; the generator panics exactly when one of them is
    unsupported. *)
Theorem C41_requested :
  exists content : file -> string, forall r,
    match Generate r with
    | Ok out =>
        Forall2 (fun f p => renamed (default "" (fl_name f)) p.1 /\ p.2 = content f) (requested r) out
    | Panic => exists f, f ∈ requested r /\ unsupported_file f
    | _ => False
    end.
Proof.
  exists (fun f => match generateFile f with Ok (_, c) => c | _ => "" end). intros r.
  destruct (Generate r) as [out| | |] eqn:E.
  - apply generate_ok in E. eapply Forall2_impl; [exact E|]. intros f p Ef. cbn beta in Ef. rewrite Ef.
    destruct (file_dich f) as [(_ & c & E')|(_ & E')]; rewrite E' in Ef; [|done]. injection Ef as <-. cbn. split; [apply ReplaceAll_renamed|done].
  - rewrite generate_requested in E. induction (requested r) as [|f fs IH]; [done|]. cbn [fold_right] in E.
    destruct (file_dich f) as [(_ & c & E')|(Hu & E')]; rewrite E' in E; cbn [rbind] in E.
    + destruct (fold_right _ _ fs) as [xs| | |]; try done. destruct (IH eq_refl) as (g & Hg & Hu). exists g. split; [apply elem_of_list_further; done|done].
    + exists f. split; [apply elem_of_list_here|done].
  - exfalso. rewrite generate_requested in E. induction (requested r) as [|f fs IH]; [done|]. cbn [fold_right] in E.
    destruct (file_dich f) as [(_ & c & E')|(Hu & E')]; rewrite E' in E; cbn [rbind] in E; [|done].
    destruct (fold_right _ _ fs) as [xs| | |]; done || (apply IH; done).
  - exfalso. rewrite generate_requested in E. induction (requested r) as [|f fs IH]; [done|]. cbn [fold_right] in E.
    destruct (file_dich f) as [(_ & c & E')|(Hu & E')]; rewrite E' in E; cbn [rbind] in E; [|done].
    destruct (fold_right _ _ fs) as [xs| | |]; done || (apply IH; done).
Qed.
Example C41_case :
  let r := mkReq ["demo.proto"; "b.proto"] [None; Some (mkFile (Some "dep.proto") None []); Some demo_file; Some (mkFile (Some "b.proto") (Some "b") [])] in
  map fl_name (requested r) = [Some "demo.proto"; Some "b.proto"] /\
  match Generate r with Ok out => map fst out = ["demo.zeropb.go"; "b.zeropb.go"] | _ => False end.
Proof. split; vm_compute; reflexivity. Qed.

(** C46.  Different names of requested files give different names of output files, if
    none of them already contains ".zeropb.go". *)
Theorem C46_output_names_partial r out :
  Generate r = Ok out ->
  NoDup (map (fun f => default "" (fl_name f)) (requested r)) ->
  Forall (fun f => ~ contains ".zeropb.go" (default "" (fl_name f))) (requested r) ->
  NoDup (map fst out).
Proof.
  intros E Hnd Hc. apply generate_ok in E.
  assert (H : Forall2 (fun f p => renamed (default "" (fl_name f)) p.1) (requested r) out).
  { eapply Forall2_impl; [exact E|]. intros f p Ef. cbn beta in Ef.
    destruct (file_dich f) as [(_ & c & E')|(_ & E')]; rewrite E' in Ef; [|done]. injection Ef as <-. apply ReplaceAll_renamed. }
  clear E. induction H as [|f p fs ps Hp Hps IH]; [constructor|]. cbn [map] in *. apply NoDup_cons in Hnd as [N1 N2].
  inversion Hc as [|? ? C1 C2]; subst. apply NoDup_cons. split; [|auto]. intros Hin. apply N1. clear -Hp Hps Hin C1 C2.
  induction Hps as [|g q fs ps Hq _ IH]; [apply elem_of_nil in Hin; done|]. inversion C2; subst. cbn [map] in *. apply elem_of_cons in Hin as [E|Hin].
  - apply elem_of_cons. left. rewrite E in Hp. eapply renamed_inj; done.
  - apply elem_of_cons. auto.
Qed.
Example C46_case :
  let r := mkReq ["a.proto"; "d/b.proto"] [Some (mkFile (Some "a.proto") None []); Some (mkFile (Some "d/b.proto") None [])] in
  Generate r <> Panic /\ NoDup (map (fun f => default "" (fl_name f)) (requested r)) /\
  Forall (fun f => ~ contains ".zeropb.go" (default "" (fl_name f))) (requested r).
Proof.
  cbn zeta. split; [vm_compute; discriminate|]. split; [apply distinct_strings; vm_compute; reflexivity|].
  assert (H : forall s, forallb (fun c => negb (Ascii.eqb c "z")) (list_ascii_of_string s) = true -> ~ contains ".zeropb.go" s).
  { intros s Hs (a & b & ->). induction a as [|c a IH]; [discriminate Hs|]. cbn in Hs. apply andb_true_iff in Hs as [_ Hs]. auto. }
  repeat (apply Forall_cons; split; [apply H; vm_compute; reflexivity|]). apply Forall_nil. exact I.
Qed.
(** Without that condition two of them can be the same. *)
Theorem C46_output_names_refuted :
  let r := mkReq ["a.proto.proto"; "a.zeropb.go.proto"] [Some (mkFile (Some "a.proto.proto") None []); Some (mkFile (Some "a.zeropb.go.proto") None [])] in
  NoDup (map (fun f => default "" (fl_name f)) (requested r)) /\
  match Generate r with Ok [(n1, _); (n2, _)] => n1 = n2 | _ => False end.
Proof. cbn zeta. split; [apply distinct_strings; vm_compute; reflexivity|vm_compute; reflexivity]. Qed.

(** C42.  For every alphabet: the letters and digits are kept, in order, and the first of
    each run of them is put in title case. *)
Theorem C42_words {R} (isl isd : R -> bool) (title : R -> R) (s : list R) :
  let keep r := isl r || isd r in
  go_case isl isd title true s = List.concat (map (with_first title) (runs keep s)) /\
  List.concat (runs keep s) = List.filter keep s /\
  Forall (Forall (fun r => keep r = true)) (runs keep s).
Proof. cbn zeta. split; [apply go_case_runs|]. split; [apply runs_filter|apply runs_keep]. Qed.
(** On protobuf names: camel case, an identifier of Go, not a keyword, exported. *)
Theorem C42_identifier s : proto_name s ->
  toGoCase s = camel s /\ identifier (toGoCase s) /\
  exists c r, toGoCase s = String c r /\ 65 <= code c <= 90.
Proof.
  intros H. split; [apply goCase_camel, proto_name_chars, H|]. split; [apply goCase_identifier, H|].
  destruct (goCase_head s H) as (c & r & E & Hu). exists c, r. split; [done|]. unfold is_upper in Hu. change (byte_of c) with (code c) in Hu. lia.
Qed.
Example C42_case : proto_name "foo_bar9_Baz" /\ toGoCase "foo_bar9_Baz" = "FooBar9Baz".
Proof. split; [comp|reflexivity]. Qed.

(** C43.  One call of Write on a writer that may fail at any point, depending on
    everything written: the renderings of the arguments are written in order, up to
    and including the first that the writer reports an error for; that error is the
    one kept. *)
Theorem C43_write {E} (resp : list string -> option E) indent written args ss :
  Forall2 (fun a s => render indent a = Ok s) args ss ->
  exists k err,
    st_write (any_writer resp) (mkST written indent None) args = Ok (mkST (written ++ take k ss) indent err) /\
    (k <= List.length ss)%nat /\
    (forall j, (0 < j < k)%nat -> resp (written ++ take j ss) = None) /\
    (err = if Nat.eqb k 0 then None else resp (written ++ take k ss)) /\
    (err = None -> k = List.length ss).
Proof. apply st_write_spec. Qed.
(** After an error nothing is written and the error stays. *)
Theorem C43_sticky {W E} (wr : writer W E) w indent e args :
  st_write wr (mkST w indent (Some e)) args = Ok (mkST w indent (Some e)).
Proof. apply st_write_err. Qed.
(** What is written for an argument. *)
Theorem C43_render indent :
  (forall n, render indent (AIndent (Z.of_nat n)) = Ok (sconcat (replicate n indent))) /\
  (forall s, render indent (AStr s) = Ok s /\ render indent (Gen.ABytes s) = Ok s /\ render indent (AStringer s) = Ok s) /\
  render indent AOther = Panic.
Proof.
  split; [|done]. intros n. cbn [render]. replace (Z.of_nat n <? 0) with false by lia. rewrite Nat2Z.id. f_equal.
  induction n as [|n IH]; [done|]. cbn. f_equal. exact IH.
Qed.
Example C43_case :
  st_write (any_writer (fun h => if Nat.eqb (List.length h) 2 then Some "disk full" else None)) (mkST [] "  " None)
    [AIndent 2; AStr "x"; AInt 12] = Ok (mkST ["    "; "x"] "  " (Some "disk full")).
Proof. reflexivity. Qed.

(** C45.  End to end, from the descriptors through the generated text: a Go program that
    makes any legal sequence of calls on a zero struct of an accepted generated package,
    by the names derived from the schema, never panics, and the accessors then answer
    according to the specification. *)
Theorem C45_generated_code fs gs d os n σ l :
  Forall good_file fs -> generated fs gs -> package_ok gs = true ->
  d ∈ messages fs -> distinct_numbers d ->
  Forall (op_ok (Z.of_nat (alen (mtype_of d))) (schema_of d)) os -> ops_size os < 2 ^ 63 ->
  is_Some (σ !! l) -> σ !! l = zero_obj (decls gs) (mname d) ->
  exists σ', go_run (decls gs) d (40 + n) σ l os = Ok σ' /\ elsewhere σ σ' l /\
    let values f := spec_run (schema_of d) os (getNumber f) in
    forall f, f ∈ d_fields d -> f <> None ->
      (forall T g, single f -> declared_type (getType f) = Some (T, g) ->
        invoke (decls gs) (40 + n) σ' l (camel (getName f)) [] = Ok ([GP (read_single T (values f))], σ')) /\
      (getType f = 11 -> exists d', d' ∈ messages fs /\ mname d' = base_name (getTypeName f) /\
        forall lx x, σ' !! lx = Some (OMsg (mname d') x) ->
        (single f ->
          invoke (decls gs) (40 + n) σ' l (camel (getName f)) [GObj lx] =
          match last (values f) with
          | None => Ok ([GP (VBool false); GErr None], σ')
          | Some w => let* (err, y) := m_Decode (mtype_of d') x (bytes_of w) in
                      Ok ([GP (VBool true); GErr err], <[lx := OMsg (mname d') y]> σ')
          end) /\
        (repeated f -> forall k, (List.length (values f) < k)%nat ->
          go_iterate (decls gs) d (40 + n) k σ' l f lx = decode_each (mtype_of d') x (read_repeated (values f)))).
Proof.
  intros H1 H2 H3 Hd Hnd Ho Hsz Hsome Hl. rewrite (acc_zero fs gs H1 H2 H3 d Hd) in Hl.
  assert (Hg := pkg_good fs H1 d Hd). assert (Hsc := schema_of_ok d Hg Hnd).
  destruct (C03_history_refines (mtype_of d) (schema_of d) os Hsc Ho Hsz) as (m & Hr & Hget & Hmsg & Hit).
  destruct (go_run_sim fs gs H1 H2 H3 d Hd n os σ l _ m Hl Ho Hr) as (σ' & E & Hl' & Hels).
  exists σ'. split; [exact E|]. split; [exact Hels|]. cbn zeta. intros f Hf Hne. destruct f as [f|]; [|done].
  assert (Hat := field_at_unique d f Hnd Hf). split.
  - intros T g Hs HT. change (40 + n)%nat with (20 + (20 + n))%nat.
    rewrite (acc_get fs gs H1 H2 H3 d Hd (Some f) Hf Hne T g (20 + n) σ' l m Hs HT Hl').
    rewrite Hget; [done|]. unfold schema_of. rewrite Hat. unfold kind_of. unfold single in Hs.
    destruct (Z.eqb_spec (getLabel (Some f)) 3); [lia|]. destruct (Z.eqb_spec (getType (Some f)) 11) as [Et|_]; [rewrite Et in HT; done|].
    rewrite HT. done.
  - intros Ht. destruct (acc_child fs gs H1 H2 H3 d Hd (Some f) Hf Hne Ht) as (d' & Hd' & Ety). exists d'. split; [done|]. split; [done|].
    intros lx x Hx. split.
    + intros Hs. rewrite (acc_Message fs gs H1 H2 H3 d d' Hd Hd' (Some f) Hf Hne Ht Ety n σ' l lx m x Hs Hl' Hx).
      rewrite Hmsg.
      * destruct (last _) as [w|]; [|cbn [rbind]; rewrite insert_id by done; done].
        destruct (m_Decode _ _ _) as [[err y]| | |]; done.
      * unfold schema_of. rewrite Hat. unfold kind_of. unfold single in Hs.
        destruct (Z.eqb_spec (getLabel (Some f)) 3); [lia|]. rewrite Ht. done.
    + intros Hrep k Hk. rewrite (go_iterate_sim fs gs H1 H2 H3 d Hd n d' (Some f) σ' l lx m x k Hd' Hf Hne Ht Ety Hrep Hl' Hx).
      apply Hit; [|exact Hk]. unfold schema_of. rewrite Hat. unfold kind_of. unfold repeated in Hrep. rewrite Hrep, Ht. done.
Qed.
(** The legal calls by name: e.g. SetMyCount, SetTitle, Decode, AppendToItems. *)
Definition demo_calls : list op :=
  [OSet 1 (VNum (-7)); OSet 2 (VString [104; 105]); OAppend 5 [8; 3]; OSet 3 (VBytes (Some [8; 9])); OAppend 5 []; OSet 1 (VNum 300)].
Example C45_case :
  distinct_numbers outer_d /\ Forall (op_ok (Z.of_nat (alen (mtype_of outer_d))) (schema_of outer_d)) demo_calls /\
  match go_run (decls demo_go) outer_d 40 {[ 0%nat := OMsg "Outer" (msg_zero (mtype_of outer_d)) ]} 0 demo_calls with
  | Ok σ => match invoke (decls demo_go) 40 σ 0 "MyCount" [] with Ok (vs, _) => vs = [GP (VNum 300)] | _ => False end
  | _ => False
  end.
Proof.
  split; [apply distinct_Z; vm_compute; reflexivity|]. split; [|vm_compute; reflexivity].
  repeat (apply Forall_cons; split;
    [first [eexists; split; [vm_compute; reflexivity|cbn; first [lia|repeat constructor; unfold is_byte; lia]]
           |split; [vm_compute; reflexivity|repeat constructor; unfold is_byte; lia]]|]).
  apply Forall_nil. exact I.
Qed.

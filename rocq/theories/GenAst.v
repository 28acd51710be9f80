(** * The syntax trees of the generated declarations, and that the text parses to them *)
From Verif Require Import Gen GoLang GenLex GenSpec GenText.
From Coq Require Import ZifyBool.

(** The text of one declaration. *)
Definition chunk (s : string) (d : decl) : Prop :=
  exists T, T <> [] /\ lexes L0 false s T L0 false /\
  forall n rest, (List.length T <= n)%nat -> parse_decl n (T ++ rest) = Some (d, Semi :: rest).
Definition chunks (s : string) (ds : list decl) : Prop :=
  exists ss, s = sconcat ss /\ Forall2 chunk ss ds.

Lemma chunks_nil : chunks "" [].
Proof. exists []. split; [done|constructor]. Qed.
Lemma chunks_one s d : chunk s d -> chunks s [d].
Proof. intros H. exists [s]. split; [cbn; rewrite sapp_nil; done|]. repeat constructor; done. Qed.
Lemma chunks_app s1 ds1 s2 ds2 : chunks s1 ds1 -> chunks s2 ds2 -> chunks (s1 +:+ s2) (ds1 ++ ds2).
Proof.
  intros (l1 & -> & H1) (l2 & -> & H2). exists (l1 ++ l2). split; [rewrite sconcat_app; done|].
  apply Forall2_app; done.
Qed.
Lemma chunks_each {A} (l : list A) (f : A -> string) (g : A -> list decl) :
  Forall (fun a => chunks (f a) (g a)) l -> chunks (sconcat (map f l)) (List.concat (map g l)).
Proof. induction 1 as [|a l Ha _ IH]; [apply chunks_nil|]. cbn. apply chunks_app; done. Qed.

(** A list of declarations. *)
Lemma chunks_parse s ds : chunks s ds ->
  exists T, lexes L0 false s T L0 false /\
  forall n, (List.length T < n)%nat -> parse_decls n T = Some ds.
Proof.
  intros (ss & -> & H). induction H as [|s d ss ds (T & HT & HL & HP) _ (T' & HL' & HP')].
  - exists []. split; [apply lexes_nil|]. intros [|n] Hn; [cbn in Hn; lia|done].
  - exists (T ++ T'). split; [eapply lexes_cons; done|]. intros [|n] Hn; [lia|].
    rewrite app_length in Hn. cbn [parse_decls].
    assert (List.length T <> 0%nat) by (destruct T; done).
    rewrite HP by lia. rewrite HP' by lia. destruct T; done.
Qed.

(** ** Tactics *)
Ltac piece :=
  lazymatch goal with
  | |- lexes ?st ?se (itoa ?n) _ _ _ => apply lexes_num; assumption
  | |- lexes ?st ?se ?p _ _ _ =>
    tryif is_var p then
      lazymatch st with L0 => apply lexes_name; assumption | _ => apply lexes_more; assumption end
    else
      lazymatch st with
      | num_state _ => eapply lexes_after_num; [reflexivity | vm_compute; reflexivity]
      | LId ?w =>
        lazymatch goal with
        | H : identifier w |- _ => eapply lexes_after_id; [exact H | reflexivity | vm_compute; reflexivity]
        | _ => apply lexes_run; vm_compute; reflexivity
        end
      | _ => apply lexes_run; vm_compute; reflexivity
      end
  end.
Ltac lx :=
  repeat lazymatch goal with
  | |- lexes _ _ (sconcat (_ :: _)) _ _ _ => eapply lexes_cons; [piece|]
  | |- lexes _ _ (sconcat []) _ _ _ => apply lexes_nil
  end.
Lemma lexes_eq st se s T T' st' se' : lexes st se s T' st' se' -> T' = T -> lexes st se s T st' se'.
Proof. intros H <-. exact H. Qed.
(** With a given list of tokens. *)
Ltac lxt := eapply lexes_eq; [lx|reflexivity].
Ltac solve_parse :=
  let n := fresh "n" in let rest := fresh "rest" in let H := fresh "H" in
  intros n rest H;
  let T := lazymatch type of H with (List.length ?T <= _)%nat => T end in
  let k := eval vm_compute in (List.length T) in
  replace n with (k + (n - k))%nat by (cbn in H; lia);
  generalize (n - k)%nat; clear; intros; vm_compute; reflexivity.
Ltac solve_chunk :=
  eexists; split; [|split; [lx | cbn [app]; solve_parse]]; discriminate.

(** ** Fields *)
Definition offs : expr :=
  ECall (ESel (EId "zeropb") "WrapOffsets")
    [EAll (ESel (ESel (EId "m") "offsets") "a"); EAddr (ESel (ESel (EId "m") "offsets") "m")].
Definition mbuf_e : expr := ESel (EId "m") "buf".
Definition bytes_t : gotype := GSlice (GName "byte").

Definition simple_decls (mt nm : string) (g : gotype) (fn : string) (k : Z) : list decl :=
  [ DFunc "m" (GPtr (GName mt)) nm [] [g]
      [SReturn [ECall (ESel (EId "zeropb") ("Get" +:+ fn)) [mbuf_e; offs; EInt k]]];
    DFunc "m" (GPtr (GName mt)) ("Set" +:+ nm) [("x", g)] []
      [SExpr (ECall (ESel (EId "zeropb") ("Set" +:+ fn)) [EAddr mbuf_e; offs; EInt k; EId "x"])] ].

Definition nil_check : stmt := SIf (EBin OpEq (EId "buf") (EId "nil")) [SReturn [EId "false"; EId "nil"]].

Definition message_decls (mt nm t : string) (k : Z) : list decl :=
  [ DFunc "m" (GPtr (GName mt)) nm [("x", GPtr (GName t))] [GName "bool"; GName "error"]
      [SDefine [EId "buf"] [ECall (ESel (EId "zeropb") "GetBytes") [mbuf_e; offs; EInt k]];
       nil_check;
       SReturn [EId "true"; ECall (ESel (EId "x") "Decode") [EId "buf"]]];
    DFunc "m" (GPtr (GName mt)) ("Set" +:+ nm) [("x", GName t)] []
      [SDefine [EId "buf"] [ECall (ESel (EId "x") "Encode") []];
       SExpr (ECall (ESel (EId "zeropb") "SetBytes") [EAddr mbuf_e; offs; EInt k; EId "buf"])] ].

Definition repeated_decls (mt nm t it : string) (k : Z) : list decl :=
  [ DType it bytes_t;
    DFunc "i" (GPtr (GName it)) "Next" [("m", GPtr (GName t))] [GName "bool"; GName "error"]
      [SVar "buf" bytes_t;
       SAssign [EDeref (EId "i"); EId "buf"] [ECall (ESel (EId "zeropb") "FindNextField") [EDeref (EId "i"); EInt k]];
       nil_check;
       SReturn [EId "true"; ECall (ESel (EId "m") "Decode") [EId "buf"]]];
    DFunc "m" (GPtr (GName mt)) nm [] [GName it]
      [SReturn [ECall (EId it) [ECall (ESel (EId "zeropb") "GetRepeatedNonPacked") [mbuf_e; offs; EInt k]]]];
    DFunc "m" (GPtr (GName mt)) ("AppendTo" +:+ nm) [("x", GName t)] []
      [SDefine [EId "buf"] [ECall (ESel (EId "x") "Encode") []];
       SExpr (ECall (ESel (EId "zeropb") "AppendBytes") [EAddr mbuf_e; offs; EInt k; EId "buf"])] ].

(** The Go type and the codec of a declared type, as the generator writes them. *)
Definition go_type (t : Z) : gotype :=
  match declared_type t with Some (_, g) => g | None => GName "" end.

(** The calls of generateSimpleField and its siblings at indentation 0. *)
Definition simple_calls (mt nm ty fn : string) (k : Z) : list (list arg) :=
  [ [AIndent 0; AStr "func (m *"; AStr mt; AStr ") "; AStr nm; AStr "() "; AStr ty; AStr (" {" +:+ nl)];
    [AIndent (next 0); AStr "return zeropb.Get"; AStr fn; AStr "(m.buf, "; AStr offsets_expr; AStr ", "; AInt k; AStr (")" +:+ nl)];
    [AIndent 0; AStr ("}" +:+ nl +:+ nl)];
    [AIndent 0; AStr "func (m *"; AStr mt; AStr ") Set"; AStr nm; AStr "(x "; AStr ty; AStr (") {" +:+ nl)];
    [AIndent (next 0); AStr "zeropb.Set"; AStr fn; AStr "(&m.buf, "; AStr offsets_expr; AStr ", "; AInt k; AStr (", x)" +:+ nl)];
    [AIndent 0; AStr ("}" +:+ nl +:+ nl)] ].
Definition message_calls (mt nm t : string) (k : Z) : list (list arg) :=
  [ [AIndent 0; AStr "func (m *"; AStr mt; AStr ") "; AStr nm; AStr "(x *"; AStr t; AStr (") (bool, error) {" +:+ nl)];
    [AIndent (next 0); AStr "buf := zeropb.GetBytes(m.buf, "; AStr offsets_expr; AStr ", "; AInt k; AStr (")" +:+ nl)];
    [AIndent (next 0); AStr ("if buf == nil {" +:+ nl)];
    [AIndent (next (next 0)); AStr ("return false, nil" +:+ nl)];
    [AIndent (next 0); AStr ("}" +:+ nl)];
    [AIndent (next 0); AStr ("return true, x.Decode(buf)" +:+ nl)];
    [AIndent 0; AStr ("}" +:+ nl +:+ nl)];
    [AIndent 0; AStr "func (m *"; AStr mt; AStr ") Set"; AStr nm; AStr "(x "; AStr t; AStr (") {" +:+ nl)];
    [AIndent (next 0); AStr ("buf := x.Encode()" +:+ nl)];
    [AIndent (next 0); AStr "zeropb.SetBytes(&m.buf, "; AStr offsets_expr; AStr ", "; AInt k; AStr (", buf)" +:+ nl)];
    [AIndent 0; AStr ("}" +:+ nl +:+ nl)] ].
Definition repeated_calls (mt nm t it : string) (k : Z) : list (list arg) :=
  [ [AIndent 0; AStr "type "; AStr it; AStr (" []byte" +:+ nl +:+ nl)];
    [AIndent 0; AStr "func (i *"; AStr it; AStr ") Next(m *"; AStr t; AStr (") (bool, error) {" +:+ nl)];
    [AIndent (next 0); AStr ("var buf []byte" +:+ nl)];
    [AIndent (next 0); AStr "*i, buf = zeropb.FindNextField((*i), "; AInt k; AStr (")" +:+ nl)];
    [AIndent (next 0); AStr ("if buf == nil {" +:+ nl)];
    [AIndent (next (next 0)); AStr ("return false, nil" +:+ nl)];
    [AIndent (next 0); AStr ("}" +:+ nl)];
    [AIndent (next 0); AStr ("return true, m.Decode(buf)" +:+ nl)];
    [AIndent 0; AStr ("}" +:+ nl +:+ nl)];
    [AIndent 0; AStr "func (m *"; AStr mt; AStr ") "; AStr nm; AStr "() "; AStr it; AStr (" {" +:+ nl)];
    [AIndent (next 0); AStr "return "; AStr it; AStr "(zeropb.GetRepeatedNonPacked(m.buf, "; AStr offsets_expr; AStr ", "; AInt k; AStr ("))" +:+ nl)];
    [AIndent 0; AStr ("}" +:+ nl +:+ nl)];
    [AIndent 0; AStr "func (m *"; AStr mt; AStr ") AppendTo"; AStr nm; AStr "(x "; AStr t; AStr (") {" +:+ nl)];
    [AIndent (next 0); AStr ("buf := x.Encode()" +:+ nl)];
    [AIndent (next 0); AStr "zeropb.AppendBytes(&m.buf, "; AStr offsets_expr; AStr ", "; AInt k; AStr (", buf)" +:+ nl)];
    [AIndent 0; AStr ("}" +:+ nl +:+ nl)] ].

Section fields.
Context (mt nm t it : string) (k : Z).
Context (Hmt : identifier mt) (Hnm : identifier nm) (Ht : identifier t) (Hit : identifier it) (Hk : 0 <= k).
Let Hset : identifier ("Set" +:+ nm).
Proof. apply identifier_prefix; [done|done|apply identifier_chars; done]. Qed.
Let Happ : identifier ("AppendTo" +:+ nm).
Proof. apply identifier_prefix; [done|done|apply identifier_chars; done]. Qed.
Let Hnmc : name_chars nm = true.
Proof. apply identifier_chars; done. Qed.


Lemma simple_chunks ty fn g :
  (ty, fn, g) ∈ [("bool", "Bool", GName "bool"); ("int32", "Int32", GName "int32"); ("int64", "Int64", GName "int64");
    ("uint32", "Uint32", GName "uint32"); ("uint64", "Uint64", GName "uint64");
    ("int32", "ZigZagInt32", GName "int32"); ("int64", "ZigZagInt64", GName "int64");
    ("uint32", "FixedUint32", GName "uint32"); ("uint64", "FixedUint64", GName "uint64");
    ("int32", "FixedInt32", GName "int32"); ("int64", "FixedInt64", GName "int64");
    ("float64", "Float64", GName "float64"); ("float32", "Float32", GName "float32");
    ("string", "String", GName "string"); ("[]byte", "Bytes", bytes_t)] ->
  chunks (text (simple_calls mt nm ty fn k)) (simple_decls mt nm g fn k).
Proof.
  intros H. rewrite <- (take_drop 3 (simple_calls mt nm ty fn k)), text_app.
  apply (chunks_app _ [_] _ [_]); apply chunks_one; unfold text; cbn [simple_calls take drop List.concat app map atext];
  repeat (apply elem_of_cons in H as [E|H]; [injection E as -> -> ->; solve_chunk|]);
  apply elem_of_nil in H; done.
Qed.

Lemma message_chunks : chunks (text (message_calls mt nm t k)) (message_decls mt nm t k).
Proof.
  rewrite <- (take_drop 7 (message_calls mt nm t k)), text_app.
  apply (chunks_app _ [_] _ [_]); apply chunks_one; unfold text; cbn [message_calls take drop List.concat app map atext]; solve_chunk.
Qed.

Lemma repeated_chunks : chunks (text (repeated_calls mt nm t it k)) (repeated_decls mt nm t it k).
Proof.
  rewrite <- (take_drop 1 (repeated_calls mt nm t it k)), text_app. apply (chunks_app _ [_] _ [_; _; _]).
  { apply chunks_one; unfold text; cbn [repeated_calls take drop List.concat app map atext]; solve_chunk. }
  rewrite <- (take_drop 8 (drop 1 _)), text_app. apply (chunks_app _ [_] _ [_; _]).
  { apply chunks_one; unfold text; cbn [repeated_calls take drop List.concat app map atext]; solve_chunk. }
  rewrite <- (take_drop 3 (drop 8 _)), text_app. apply (chunks_app _ [_] _ [_]);
    apply chunks_one; unfold text; cbn [repeated_calls take drop List.concat app map atext]; solve_chunk.
Qed.
End fields.

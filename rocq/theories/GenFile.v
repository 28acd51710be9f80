(** * The text of a generated file parses to the expected declarations *)
From Verif Require Import Gen GoLang GenLex GenSpec GenText GenAst.
From Coq Require Import ZifyBool.

(** ** The header of a message *)
Definition struct_t (n : Z) : gotype :=
  GStruct [("buf", bytes_t);
           ("offsets", GStruct [("a", GArr n (GName "uint16")); ("m", GMapOf (GName "int") (GName "uint64"))])].
Definition struct_decl (mt : string) (n : Z) : decl := DType mt (struct_t n).
Definition table_decl (mt : string) (ks : list Z) : decl :=
  DSet ("repeatedFields_" +:+ mt) (GQual "zeropb" "RepeatedFields") ks.
Definition encode_decl (mt : string) : decl :=
  DFunc "m" (GPtr (GName mt)) "Encode" [] [bytes_t] [SReturn [mbuf_e]].
Definition decode_decl (mt : string) : decl :=
  DFunc "m" (GPtr (GName mt)) "Decode" [("buf", bytes_t)] [GName "error"]
    [SAssign [mbuf_e] [EId "buf"];
     SReturn [ECall (ESel (EId "zeropb") "Decode") [mbuf_e; offs; EId ("repeatedFields_" +:+ mt)]]].
Definition reset_decl (mt : string) : decl :=
  DFunc "m" (GPtr (GName mt)) "Reset" [("buf", bytes_t)] []
    [SIf (EBin OpGt (ECall (EId "len") [EId "buf"]) (EInt 0))
       [SExpr (ECall (EId "panic") [ELit "buf must be empty"])];
     SAssign [mbuf_e] [EId "buf"];
     SExpr (ECall (ESel offs "Clear") [])].

Definition struct_calls (mt : string) (n : Z) : list (list arg) :=
  [ [AIndent 0; AStr "type "; AStr mt; AStr (" struct {" +:+ nl)];
    [AIndent (next 0); AStr ("buf []byte" +:+ nl)];
    [AIndent (next 0); AStr ("offsets struct {" +:+ nl)];
    [AIndent (next (next 0)); AStr "a ["; AInt n; AStr ("]uint16" +:+ nl)];
    [AIndent (next (next 0)); AStr ("m map[int]uint64" +:+ nl)];
    [AIndent (next 0); AStr ("}" +:+ nl)];
    [AIndent 0; AStr ("}" +:+ nl +:+ nl)] ].
Definition table_call (mt : string) : list arg :=
  [AIndent 0; AStr "var repeatedFields_"; AStr mt; AStr (" = zeropb.RepeatedFields{" +:+ nl)].
Definition key_call (k : Z) : list arg := [AIndent (next 0); AInt k; AStr (": struct{}{}," +:+ nl)].
Definition close_call : list arg := [AIndent 0; AStr ("}" +:+ nl +:+ nl)].
Definition methods_calls (mt : string) : list (list arg) :=
  [ [AIndent 0; AStr "func (m *"; AStr mt; AStr (") Encode() []byte {" +:+ nl)];
    [AIndent (next 0); AStr ("return m.buf" +:+ nl)];
    [AIndent 0; AStr ("}" +:+ nl +:+ nl)];
    [AIndent 0; AStr "func (m *"; AStr mt; AStr (") Decode(buf []byte) error {" +:+ nl)];
    [AIndent (next 0); AStr ("m.buf = buf" +:+ nl)];
    [AIndent (next 0); AStr "return zeropb.Decode(m.buf, "; AStr offsets_expr; AStr ", repeatedFields_"; AStr mt; AStr (")" +:+ nl)];
    [AIndent 0; AStr ("}" +:+ nl +:+ nl)];
    [AIndent 0; AStr "func (m *"; AStr mt; AStr (") Reset(buf []byte) {" +:+ nl)];
    [AIndent (next 0); AStr ("if len(buf) > 0 {" +:+ nl)];
    [AIndent (next (next 0)); AStr ("panic(`buf must be empty`)" +:+ nl)];
    [AIndent (next 0); AStr ("}" +:+ nl)];
    [AIndent (next 0); AStr ("m.buf = buf" +:+ nl)];
    [AIndent (next 0); AStr offsets_expr; AStr (".Clear()" +:+ nl)];
    [AIndent 0; AStr ("}" +:+ nl +:+ nl)] ].

Definition key_toks (k : Z) : list token := [TNum k; Colon; TKw "struct"; LC; RC; LC; RC; Comma].

Lemma keys_parse ks : forall n rest, (List.length ks < n)%nat ->
  parse_keys n (List.concat (map key_toks ks) ++ RC :: rest) = Some (ks, rest).
Proof.
  induction ks as [|k ks IH]; intros [|n] rest Hn; cbn in Hn; try lia; [done|].
  cbn [map List.concat key_toks app]. cbn [parse_keys]. rewrite IH by lia. done.
Qed.

Section header.
Context (mt : string) (n : Z) (ks : list Z).
Context (Hmt : identifier mt) (Hn : 0 <= n) (Hks : Forall (fun k => 0 <= k) ks).
Let Hmtc : name_chars mt = true.
Proof. apply identifier_chars; done. Qed.
Let Htab : identifier ("repeatedFields_" +:+ mt).
Proof. apply identifier_prefix; done. Qed.

Lemma struct_chunk : chunk (text (struct_calls mt n)) (struct_decl mt n).
Proof. unfold text; cbn [struct_calls List.concat app map atext]; solve_chunk. Qed.

Lemma methods_chunks : chunks (text (methods_calls mt)) [encode_decl mt; decode_decl mt; reset_decl mt].
Proof.
  rewrite <- (take_drop 3 (methods_calls mt)), text_app. apply (chunks_app _ [_] _ [_; _]).
  { apply chunks_one; unfold text; cbn [methods_calls take drop List.concat app map atext]; solve_chunk. }
  rewrite <- (take_drop 4 (drop 3 _)), text_app. apply (chunks_app _ [_] _ [_]);
    apply chunks_one; unfold text; cbn [methods_calls take drop List.concat app map atext]; solve_chunk.
Qed.

Lemma keys_lex : lexes L0 false (text (map key_call ks)) (List.concat (map key_toks ks)) L0 false.
Proof.
  induction Hks as [|k l Hk Hl IH]; [apply lexes_nil|]. cbn [map List.concat].
  change (key_call k :: map key_call l) with ([key_call k] ++ map key_call l). rewrite text_app.
  eapply lexes_app; [|apply IH; inversion Hks; done]. unfold text; cbn [key_call List.concat app map atext].
  lxt.
Qed.

Lemma table_chunk :
  chunk (text [table_call mt] +:+ text (map key_call ks) +:+ text [close_call]) (table_decl mt ks).
Proof.
  exists ([TKw "var"; TId ("repeatedFields_" +:+ mt); Eq; TId "zeropb"; Dot; TId "RepeatedFields"; LC] ++
     List.concat (map key_toks ks) ++ [RC; Semi]).
  split; [done|split].
  - eapply lexes_app; [|eapply lexes_app; [apply keys_lex|]].
    + unfold text; cbn [table_call List.concat app map atext]. lxt.
    + apply lexes_run. reflexivity.
  - intros m rest Hm. rewrite !app_length in Hm. cbn [List.length] in Hm.
    assert (List.length ks <= List.length (List.concat (map key_toks ks)))%nat.
    { clear. induction ks as [|k l IH]; [done|]. cbn [map List.concat]. rewrite app_length. cbn [List.length key_toks]. lia. }
    destruct m as [|m]; [lia|]. cbn [app parse_decl parse_type]. rewrite <- app_assoc. cbn [app].
    rewrite keys_parse by lia. done.
Qed.
End header.

(** ** The declarations of a file *)
Definition repeated_keys (fs : list (option field)) : list Z :=
  map getNumber (List.filter (fun f => getLabel f =? LABEL_REPEATED) fs).

Definition iterator_name (mt : string) (f : option field) : string :=
  mt +:+ fieldToGoTypeMessage (getTypeName f) +:+ "Iterator".

Definition field_decls (mt : string) (f : option field) : list decl :=
  let nm := toGoCase (getName f) in
  let k := getNumber f in
  let t := fieldToGoTypeMessage (getTypeName f) in
  match f with
  | None => []
  | Some _ =>
    if (getLabel f =? LABEL_OPTIONAL) || (getLabel f =? LABEL_REQUIRED) then
      if getType f =? TYPE_MESSAGE then message_decls mt nm t k
      else match fieldToGoTypeSimple (getType f) with
           | Ok (_, fn) => simple_decls mt nm (go_type (getType f)) fn k
           | _ => []
           end
    else if getLabel f =? LABEL_REPEATED then
      if getType f =? TYPE_MESSAGE then repeated_decls mt nm t (iterator_name mt f) k else []
    else []
  end.

Definition array_len (d : descriptor) : Z := largestFieldID (d_fields d) + 1.

Definition header_decls (mt : string) (d : descriptor) : list decl :=
  [struct_decl mt (array_len d); table_decl mt (repeated_keys (d_fields d)); encode_decl mt; decode_decl mt; reset_decl mt].
Definition message_file_decls (d : descriptor) : list decl :=
  let mt := default "" (d_name d) in
  header_decls mt d ++ List.concat (map (field_decls mt) (d_fields d)).

Definition file_decls (f : file) : list decl :=
  List.concat (map (fun d => match d with Some d => message_file_decls d | None => [] end) (fl_messages f)).

(** ** Fields *)
Lemma good_number f : good_field f -> 0 <= getNumber f < 2 ^ 29.
Proof. intros [->|(_ & H & _)]; [done|lia]. Qed.

Lemma simple_table t : is_Some (declared_type t) ->
  exists ty fn, fieldToGoTypeSimple t = Ok (ty, fn) /\ t <> TYPE_MESSAGE /\
  (ty, fn, go_type t) ∈ [("bool", "Bool", GName "bool"); ("int32", "Int32", GName "int32"); ("int64", "Int64", GName "int64");
    ("uint32", "Uint32", GName "uint32"); ("uint64", "Uint64", GName "uint64");
    ("int32", "ZigZagInt32", GName "int32"); ("int64", "ZigZagInt64", GName "int64");
    ("uint32", "FixedUint32", GName "uint32"); ("uint64", "FixedUint64", GName "uint64");
    ("int32", "FixedInt32", GName "int32"); ("int64", "FixedInt64", GName "int64");
    ("float64", "Float64", GName "float64"); ("float32", "Float32", GName "float32");
    ("string", "String", GName "string"); ("[]byte", "Bytes", bytes_t)].
Proof.
  intros H.
  assert (Ht : t ∈ [1;2;3;4;5;6;7;8;9;12;13;14;15;16;17;18]).
  { destruct t as [|p|p]; [destruct H; done| |destruct H; done].
    do 5 (destruct p as [p|p|]; try (destruct H as [? H]; discriminate H); try (apply (bool_decide_unpack _); vm_compute; exact I)). }
  clear H.
  repeat (apply elem_of_cons in Ht as [->|Ht];
    [do 2 eexists; split; [reflexivity|]; split; [done|]; vm_compute; repeat (first [apply elem_of_list_here|apply elem_of_list_further])|]).
  apply elem_of_nil in Ht. done.
Qed.

Lemma field_gen mt f : identifier mt -> good_field f ->
  exists s, gen_appends (fun st => generateField st 0 mt f) s /\ chunks s (field_decls mt f).
Proof.
  intros Hmt [->|(Hnm & Hk & Hlab & Hty)].
  { exists "". split; [apply appends_nil|apply chunks_nil]. }
  destruct f as [f|]; [|exists ""; split; [apply appends_nil|apply chunks_nil]].
  unfold generateField, field_decls. set (F := Some f) in *. clearbody F.
  assert (Hid := goCase_identifier _ Hnm).
  destruct Hty as [(t & (Hty & Htn) & Ht)|Hty].
  - (* a message type *)
    rewrite Hty. change (11 =? TYPE_MESSAGE) with true. cbn match.
    assert (Et := last_component_fun _ _ Htn).
    destruct Hlab as [Hs|Hr].
    + assert (E : (getLabel F =? LABEL_OPTIONAL) || (getLabel F =? LABEL_REQUIRED) = true).
      { destruct Hs as [->| ->]; done. }
      rewrite E. eexists. split.
      * unfold generateMessageField. apply puts_fine. done.
      * rewrite Et. apply message_chunks; try done. lia.
    + rewrite Hr. change ((3 =? LABEL_OPTIONAL) || (3 =? LABEL_REQUIRED)) with false. change (3 =? LABEL_REPEATED) with true. cbn match.
      eexists. split.
      * unfold generateRepeatedMessageField. apply puts_fine. done.
      * rewrite Et. unfold iterator_name. rewrite Et. apply repeated_chunks; try done; [|lia].
        rewrite <- sapp_assoc. apply identifier_suffix; [|done|done].
        destruct Hmt as [H _]. apply identifier_chars in Ht.
        destruct mt as [|c m]; [done|]. destruct H as [Hc Hm]. change (String c m +:+ t) with (String c (m +:+ t)).
        split; [done|]. rewrite name_chars_app, Hm, Ht. done.
  - (* a simple type *)
    destruct (simple_table _ Hty) as (ty & fn & Efn & Hne & Hin).
    replace (getType F =? TYPE_MESSAGE) with false by lia.
    destruct Hlab as [Hs|Hr].
    + assert (E : (getLabel F =? LABEL_OPTIONAL) || (getLabel F =? LABEL_REQUIRED) = true).
      { destruct Hs as [->| ->]; done. }
      rewrite E. eexists. split.
      * unfold generateSimpleField. rewrite Efn. cbn [rbind]. apply puts_fine. done.
      * rewrite Efn. apply (simple_chunks mt (toGoCase (getName F)) (getNumber F)); try done. lia.
    + rewrite Hr. exists "". split; [apply appends_nil|apply chunks_nil].
Qed.

Lemma largest_acc fs : forall a, Forall good_field fs -> 0 <= a < 2 ^ 29 ->
  let r := fold_left (fun largest f => if largest <? getNumber f then getNumber f else largest) fs a in
  a <= r < 2 ^ 29 /\ (forall f, f ∈ fs -> getNumber f <= r) /\ (r = a \/ exists f, f ∈ fs /\ getNumber f = r).
Proof.
  induction fs as [|f fs IH]; intros a Hg Ha; cbn [fold_left].
  - split; [lia|]. split; [intros f Hf; apply elem_of_nil in Hf; done|auto].
  - inversion Hg as [|? ? Hf Hfs]; subst. apply good_number in Hf.
    specialize (IH (if a <? getNumber f then getNumber f else a) Hfs).
    destruct (a <? getNumber f) eqn:E.
    + destruct IH as (H1 & H2 & H3); [lia|]. split; [lia|]. split.
      * intros g Hin. apply elem_of_cons in Hin as [->|Hin]; [lia|auto].
      * right. destruct H3 as [->|(g & Hin & <-)]; [exists f|exists g]; split; try done; [apply elem_of_list_here|apply elem_of_list_further; done].
    + destruct IH as (H1 & H2 & H3); [lia|]. split; [lia|]. split.
      * intros g Hin. apply elem_of_cons in Hin as [->|Hin]; [lia|auto].
      * destruct H3 as [->|(g & Hin & <-)]; [auto|right; exists g; split; [apply elem_of_list_further; done|done]].
Qed.
Lemma largest_ok fs : Forall good_field fs ->
  0 <= largestFieldID fs < 2 ^ 29 /\ (forall f, f ∈ fs -> getNumber f <= largestFieldID fs) /\
  (largestFieldID fs = 0 \/ exists f, f ∈ fs /\ getNumber f = largestFieldID fs).
Proof. intros H. apply (largest_acc fs 0 H). lia. Qed.

Lemma table_gen fs : gen_appends (fun st => for_each st fs (fun st f =>
    if getLabel f =? LABEL_REPEATED then
      put st [AIndent (next 0); AInt (getNumber f); AStr (": struct{}{}," +:+ nl)]
    else Ok st)) (text (map key_call (repeated_keys fs))).
Proof.
  induction fs as [|f fs IH]; [apply appends_nil|]. cbn [for_each]. unfold repeated_keys. cbn [List.filter].
  destruct (getLabel f =? LABEL_REPEATED).
  - intros w. rewrite (put_fine [AIndent (next 0); AInt (getNumber f); AStr (": struct{}{}," +:+ nl)]) by done.
    cbn [rbind map]. rewrite IH. change (key_call (getNumber f) :: ?l) with ([key_call (getNumber f)] ++ l).
    rewrite text_app, sapp_assoc. do 2 f_equal.
  - intros w. cbn [rbind]. apply IH.
Qed.

Lemma message_gen d : good_message d ->
  exists s, gen_appends (fun st => generateMessage st 0 d) s /\ chunks s (message_file_decls d).
Proof.
  intros [Hmt Hfs]. unfold generateMessage, message_file_decls.
  set (mt := default "" (d_name d)) in *.
  destruct (largest_ok _ Hfs) as (Hl & _).
  assert (Hi : i32 (largestFieldID (d_fields d) + 1) = array_len d).
  { unfold array_len, i32. assert (2 ^ 29 = 536870912) by done. rewrite Z.mod_small by lia. lia. }
  rewrite Hi.
  assert (Hf : exists s, gen_appends (fun st => for_each st (d_fields d) (fun st f => generateField st 0 mt f)) s /\
    chunks s (List.concat (map (field_decls mt) (d_fields d)))).
  { clear Hl Hi. induction Hfs as [|f fs Hf _ (s & H1 & H2)].
    - exists "". split; [apply appends_nil|apply chunks_nil].
    - destruct (field_gen mt f Hmt Hf) as (s' & H1' & H2'). exists (s' +:+ s). split; [|apply chunks_app; done].
      cbn [for_each]. exact (appends_bind _ _ _ _ H1' H1). }
  destruct Hf as (sf & Hf1 & Hf2).
  exists ((text (struct_calls mt (array_len d)) +:+ text [table_call mt]) +:+ text (map key_call (repeated_keys (d_fields d))) +:+
     (text [close_call] +:+ text (methods_calls mt)) +:+ sf). split.
  - apply (appends_bind _ _ _ _); [rewrite <- text_app; apply puts_fine; done|].
    apply (appends_bind _ _ _ _); [apply table_gen|].
    apply (appends_bind _ _ _ _); [rewrite <- text_app; apply puts_fine; done|exact Hf1].
  - rewrite !sapp_assoc. apply (chunks_app _ [_]); [apply chunks_one, struct_chunk; [done|unfold array_len; lia]|].
    rewrite <- (sapp_assoc (text (map _ _))), <- (sapp_assoc (text [table_call mt])).
    apply (chunks_app _ [_]); [apply chunks_one, table_chunk; [done|]|].
    + unfold repeated_keys. apply Forall_forall. intros k Hk. apply elem_of_list_fmap in Hk as (f & -> & Hf).
      apply elem_of_list_In, filter_In in Hf as [Hf _]. apply elem_of_list_In in Hf. rewrite Forall_forall in Hfs. apply Hfs, good_number in Hf. lia.
    + apply (chunks_app _ [_; _; _]); [apply methods_chunks; done|exact Hf2].
Qed.

Theorem file_gen f : good_file f ->
  exists content, generateFile f = Ok (ReplaceAll (default "" (fl_name f)) ".proto" ".zeropb.go", content) /\
  parse content = Some (mkGoFile (default "" (fl_package f)) ["github.com/danhhz/zeropb"] (file_decls f)).
Proof.
  intros [Hpk Hms]. set (pk := default "" (fl_package f)) in *.
  assert (HM : exists s, gen_appends (fun st => for_each st (fl_messages f) (fun st m =>
    match m with None => Ok st | Some m => generateMessage st 0 m end)) s /\ chunks s (file_decls f)).
  { unfold file_decls. induction Hms as [|d ds Hd _ (s & H1 & H2)].
    - exists "". split; [apply appends_nil|apply chunks_nil].
    - cbn [for_each map List.concat]. destruct d as [d|].
      + destruct (message_gen d Hd) as (s' & H1' & H2'). exists (s' +:+ s). split; [|apply chunks_app; done].
        apply appends_bind; done.
      + exists s. split; done. }
  destruct HM as (s & H1 & H2).
  unfold generateFile.
  set (calls := [[AIndent 0; AStr ("// Code generated by protoc-gen-zeropb. DO NOT EDIT." +:+ nl +:+ nl)];
    [AIndent 0; AStr "package "; AStr (default "" (fl_package f)); AStr (nl +:+ nl)];
    [AIndent 0; AStr ("import " +:+ dquote +:+ "github.com/danhhz/zeropb" +:+ dquote); AStr (nl +:+ nl)] ]).
  rewrite (puts_fine calls) by done. cbn [rbind]. rewrite H1. cbn [rbind st_w].
  eexists. split; [reflexivity|]. change ("" +:+ ?x) with x.
  assert (HL : lexes L0 false (text calls)
    [TKw "package"; TId pk; Semi; TKw "import"; TLit "github.com/danhhz/zeropb"; Semi] L0 false).
  { unfold text, calls. cbn [List.concat app map atext]. fold pk. clearbody pk. lxt. }
  destruct (chunks_parse _ _ H2) as (T & HT & HP).
  assert (HA := lexes_app _ _ _ _ _ _ _ _ _ _ HL HT). clear HL HT. cbn [app] in HA.
  unfold parse, tokens. rewrite <- (sapp_nil (text calls +:+ s)). rewrite HA. cbn [lex pre app].
  unfold parse_file. rewrite app_nil_r.
  set (N := S (List.length _)). assert (HN : (6 + List.length T < N)%nat) by (unfold N; cbn [List.length]; lia). clearbody N.
  destruct N as [|[|N]]; [lia|lia|]. cbn [parse_imports].
  assert (E : forall (X : Type) (a : X) (k : string -> list token -> X),
    match T with TKw "import" :: TLit p :: Semi :: ts => k p ts | _ => a end = a).
  { intros X a k. destruct T as [|tk T]; [done|]. destruct tk; try done.
    destruct (String.eqb_spec s0 "import") as [->|Hne].
    - exfalso. specialize (HP (S (List.length (TKw "import" :: T))) ltac:(lia)). discriminate HP.
    - repeat (destruct s0 as [|[[] [] [] [] [] [] [] []] s0]; try done). }
  rewrite E. rewrite HP by lia. done.
Qed.

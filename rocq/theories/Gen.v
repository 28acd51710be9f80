(** * Model of the code generator (generate/generate.go, generate/stringtree.go) *)
From Verif Require Export GoBase.
From stdpp Require Export strings.
From Coq Require Export Ascii String.
Export ListNotations.
#[global] Open Scope string_scope.
#[global] Open Scope list_scope.
#[global] Open Scope Z_scope.

(** Go strings are byte strings; here Coq strings (of 8-bit characters).
    Concatenation is [+:+]. *)
Definition sconcat (l : list string) : string := fold_right String.append "" l.

(** ** strconv.Itoa *)
Definition digit (d : Z) : ascii := ascii_of_nat (48 + Z.to_nat d).
Fixpoint utoa_aux (fuel : nat) (n : Z) (acc : string) : string :=
  match fuel with
  | O => acc
  | S fuel =>
    let acc := String (digit (n mod 10)) acc in
    if n / 10 =? 0 then acc else utoa_aux fuel (n / 10) acc
  end.
Definition utoa (n : Z) : string := utoa_aux (S (Z.to_nat (Z.log2 n))) n "".
Definition itoa (n : Z) : string := if n <? 0 then "-" +:+ utoa (- n) else utoa n.

(** ** The indenting writer (generate/stringtree.go)

    An io.Writer is a state [W] and a function giving the new state and the
    error; the byte count Write returns is ignored by the code
    (stringtree.go:42-51). *)
Definition writer (W E : Type) := W -> string -> W * option E.

(** stringtree.go:21-25, the wrapped writer being given by its state. *)
Record stree (W E : Type) := mkST { st_w : W; st_indent : string; st_err : option E }.
Arguments mkST {W E}. Arguments st_w {W E}. Arguments st_indent {W E}. Arguments st_err {W E}.

(** An argument of Write, by the case of the type switch it takes
    (stringtree.go:40-54).  [AOther]: a value of any other type. *)
Inductive arg :=
| AIndent (i : Z)
| ABytes (s : string)
| AStr (s : string)
| AStringer (s : string)
| AInt (z : Z)
| AOther.

(** strings.Repeat for a non-negative count. *)
Fixpoint repeat_str (s : string) (n : nat) : string :=
  match n with O => "" | S n => s +:+ repeat_str s n end.

(** The string passed to the writer; strings.Repeat panics on a negative count
    (its panic on overflow of the length is not modelled). *)
Definition render (indent : string) (a : arg) : res string :=
  match a with
  | AIndent i => if i <? 0 then Panic else Ok (repeat_str indent (Z.to_nat i))
  | ABytes s | AStr s | AStringer s => Ok s
  | AInt z => Ok (itoa z)
  | AOther => Panic
  end.

(** stringtree.go:35-56 *)
Fixpoint st_write {W E} (wr : writer W E) (st : stree W E) (args : list arg) : res (stree W E) :=
  match args with
  | [] => Ok st
  | a :: args =>
    match st_err st with
    | Some _ => Ok st
    | None =>
      let* s := render (st_indent st) a in
      let '(w, e) := wr (st_w st) s in
      st_write wr (mkST w (st_indent st) e) args
    end
  end.

(** ** Descriptors (generate/descriptor.pb.go, generate/plugin.pb.go)

    The fields the generator reads, all optional. *)
Record field := mkField {
  fd_name : option string; fd_number : option Z; fd_label : option Z;
  fd_type : option Z; fd_type_name : option string }.
Record descriptor := mkDesc { d_name : option string; d_fields : list (option field) }.
Record file := mkFile {
  fl_name : option string; fl_package : option string; fl_messages : list (option descriptor) }.
Record request := mkReq { rq_files : list string; rq_protos : list (option file) }.

(** The getters, which are also defined on nil pointers
    (descriptor.pb.go:444-456, 572-577, 858-891). *)
Definition getName (f : option field) : string := match f with Some f => default "" (fd_name f) | None => "" end.
Definition getNumber (f : option field) : Z := match f with Some f => default 0 (fd_number f) | None => 0 end.
Definition getLabel (f : option field) : Z := match f with Some f => default 1 (fd_label f) | None => 1 end.
Definition getType (f : option field) : Z := match f with Some f => default 1 (fd_type f) | None => 1 end.
Definition getTypeName (f : option field) : string := match f with Some f => default "" (fd_type_name f) | None => "" end.

(** descriptor.pb.go:29-55, 127-129 *)
Definition LABEL_OPTIONAL := 1. Definition LABEL_REQUIRED := 2. Definition LABEL_REPEATED := 3.
Definition TYPE_DOUBLE := 1. Definition TYPE_FLOAT := 2. Definition TYPE_INT64 := 3.
Definition TYPE_UINT64 := 4. Definition TYPE_INT32 := 5. Definition TYPE_FIXED64 := 6.
Definition TYPE_FIXED32 := 7. Definition TYPE_BOOL := 8. Definition TYPE_STRING := 9.
Definition TYPE_GROUP := 10. Definition TYPE_MESSAGE := 11. Definition TYPE_BYTES := 12.
Definition TYPE_UINT32 := 13. Definition TYPE_ENUM := 14. Definition TYPE_SFIXED32 := 15.
Definition TYPE_SFIXED64 := 16. Definition TYPE_SINT32 := 17. Definition TYPE_SINT64 := 18.

(** ** Names *)

(** generate.go:188-202 on runes: [isl], [isd] and [title] are unicode.IsLetter,
    unicode.IsDigit and unicode.ToTitle, [next] is titleNext. *)
Fixpoint go_case {R} (isl isd : R -> bool) (title : R -> R) (next : bool) (s : list R) : list R :=
  match s with
  | [] => []
  | r :: s =>
    if negb (isl r) && negb (isd r) then go_case isl isd title true s
    else (if next then title r else r) :: go_case isl isd title false s
  end.

(** The ASCII part of the unicode tables. *)
Definition byte_of (c : ascii) : Z := Z.of_nat (nat_of_ascii c).
Definition is_upper (c : ascii) : bool := (65 <=? byte_of c) && (byte_of c <=? 90).
Definition is_lower (c : ascii) : bool := (97 <=? byte_of c) && (byte_of c <=? 122).
Definition is_letter (c : ascii) : bool := is_upper c || is_lower c.
Definition is_digit (c : ascii) : bool := (48 <=? byte_of c) && (byte_of c <=? 57).
Definition to_title (c : ascii) : ascii :=
  if is_lower c then ascii_of_nat (nat_of_ascii c - 32) else c.

(** Simplification: names are ASCII, as protoc requires of identifiers; on other
    strings Go works on the decoded runes (theorem C42 also covers [go_case] on
    runes with arbitrary tables). *)
Definition toGoCase (s : string) : string :=
  string_of_list_ascii (go_case is_letter is_digit to_title true (list_ascii_of_string s)).

(** generate.go:242-247: the part after the last dot. *)
Fixpoint after_last_dot (s : string) : option string :=
  match s with
  | "" => None
  | String c s =>
    match after_last_dot s with
    | Some r => Some r
    | None => if Ascii.eqb c "." then Some s else None
    end
  end%string.
Definition fieldToGoTypeMessage (s : string) : string := default s (after_last_dot s).

(** generate.go:204-240 *)
Definition fieldToGoTypeSimple (t : Z) : res (string * string) :=
  if t =? TYPE_BOOL then Ok ("bool", "Bool")
  else if t =? TYPE_INT32 then Ok ("int32", "Int32")
  else if t =? TYPE_INT64 then Ok ("int64", "Int64")
  else if t =? TYPE_UINT32 then Ok ("uint32", "Uint32")
  else if t =? TYPE_UINT64 then Ok ("uint64", "Uint64")
  else if t =? TYPE_SINT32 then Ok ("int32", "ZigZagInt32")
  else if t =? TYPE_SINT64 then Ok ("int64", "ZigZagInt64")
  else if t =? TYPE_FIXED32 then Ok ("uint32", "FixedUint32")
  else if t =? TYPE_FIXED64 then Ok ("uint64", "FixedUint64")
  else if t =? TYPE_SFIXED32 then Ok ("int32", "FixedInt32")
  else if t =? TYPE_SFIXED64 then Ok ("int64", "FixedInt64")
  else if t =? TYPE_DOUBLE then Ok ("float64", "Float64")
  else if t =? TYPE_FLOAT then Ok ("float32", "Float32")
  else if t =? TYPE_STRING then Ok ("string", "String")
  else if t =? TYPE_BYTES then Ok ("[]byte", "Bytes")
  else if t =? TYPE_ENUM then Ok ("uint32", "Uint32")
  else Panic.

(** ** Generation

    The generator writes to a strings.Builder, whose Write never fails. *)
Notation tree := (stree string Empty_set).
Definition builder : writer string Empty_set := fun w s => (w +:+ s, None).
Definition nl : string := String "010" "".
Definition put (st : tree) (args : list arg) : res tree := st_write builder st args.

(** A sequence of st.Write calls. *)
Fixpoint puts (st : tree) (calls : list (list arg)) : res tree :=
  match calls with
  | [] => Ok st
  | c :: calls => let* st := put st c in puts st calls
  end.

(** A loop over a slice, in the order of the slice. *)
Fixpoint for_each {A} (st : tree) (l : list A) (body : tree -> A -> res tree) : res tree :=
  match l with
  | [] => Ok st
  | a :: l => let* st := body st a in for_each st l body
  end.

(** generate.go:34 *)
Definition offsets_expr : string := "zeropb.WrapOffsets(m.offsets.a[:], &m.offsets.m)".

(** stringtree.go:16-18 *)
Definition next (i : Z) : Z := i + 1.

(** generate.go:125-138 *)
Definition generateSimpleField (st : tree) (indent : Z) (messageGoType : string) (f : option field) : res tree :=
  let fieldGoName := toGoCase (getName f) in
  let* (fieldGoType, fieldFnName) := fieldToGoTypeSimple (getType f) in
  puts st [
    [AIndent indent; AStr "func (m *"; AStr messageGoType; AStr ") "; AStr fieldGoName; AStr "() "; AStr fieldGoType; AStr (" {" +:+ nl)];
    [AIndent (next indent); AStr "return zeropb.Get"; AStr fieldFnName; AStr "(m.buf, "; AStr offsets_expr; AStr ", "; AInt (getNumber f); AStr (")" +:+ nl)];
    [AIndent indent; AStr ("}" +:+ nl +:+ nl)];
    [AIndent indent; AStr "func (m *"; AStr messageGoType; AStr ") Set"; AStr fieldGoName; AStr "(x "; AStr fieldGoType; AStr (") {" +:+ nl)];
    [AIndent (next indent); AStr "zeropb.Set"; AStr fieldFnName; AStr "(&m.buf, "; AStr offsets_expr; AStr ", "; AInt (getNumber f); AStr (", x)" +:+ nl)];
    [AIndent indent; AStr ("}" +:+ nl +:+ nl)] ].

(** generate.go:140-158 *)
Definition generateMessageField (st : tree) (indent : Z) (messageGoType : string) (f : option field) : res tree :=
  let fieldGoName := toGoCase (getName f) in
  let fieldGoType := fieldToGoTypeMessage (getTypeName f) in
  puts st [
    [AIndent indent; AStr "func (m *"; AStr messageGoType; AStr ") "; AStr fieldGoName; AStr "(x *"; AStr fieldGoType; AStr (") (bool, error) {" +:+ nl)];
    [AIndent (next indent); AStr "buf := zeropb.GetBytes(m.buf, "; AStr offsets_expr; AStr ", "; AInt (getNumber f); AStr (")" +:+ nl)];
    [AIndent (next indent); AStr ("if buf == nil {" +:+ nl)];
    [AIndent (next (next indent)); AStr ("return false, nil" +:+ nl)];
    [AIndent (next indent); AStr ("}" +:+ nl)];
    [AIndent (next indent); AStr ("return true, x.Decode(buf)" +:+ nl)];
    [AIndent indent; AStr ("}" +:+ nl +:+ nl)];
    [AIndent indent; AStr "func (m *"; AStr messageGoType; AStr ") Set"; AStr fieldGoName; AStr "(x "; AStr fieldGoType; AStr (") {" +:+ nl)];
    [AIndent (next indent); AStr ("buf := x.Encode()" +:+ nl)];
    [AIndent (next indent); AStr "zeropb.SetBytes(&m.buf, "; AStr offsets_expr; AStr ", "; AInt (getNumber f); AStr (", buf)" +:+ nl)];
    [AIndent indent; AStr ("}" +:+ nl +:+ nl)] ].

(** generate.go:160-186 *)
Definition generateRepeatedMessageField (st : tree) (indent : Z) (messageGoType : string) (f : option field) : res tree :=
  let fieldGoName := toGoCase (getName f) in
  let fieldGoType := fieldToGoTypeMessage (getTypeName f) in
  let itGoType := messageGoType +:+ fieldGoType +:+ "Iterator" in
  puts st [
    [AIndent indent; AStr "type "; AStr itGoType; AStr (" []byte" +:+ nl +:+ nl)];
    [AIndent indent; AStr "func (i *"; AStr itGoType; AStr ") Next(m *"; AStr fieldGoType; AStr (") (bool, error) {" +:+ nl)];
    [AIndent (next indent); AStr ("var buf []byte" +:+ nl)];
    [AIndent (next indent); AStr "*i, buf = zeropb.FindNextField((*i), "; AInt (getNumber f); AStr (")" +:+ nl)];
    [AIndent (next indent); AStr ("if buf == nil {" +:+ nl)];
    [AIndent (next (next indent)); AStr ("return false, nil" +:+ nl)];
    [AIndent (next indent); AStr ("}" +:+ nl)];
    [AIndent (next indent); AStr ("return true, m.Decode(buf)" +:+ nl)];
    [AIndent indent; AStr ("}" +:+ nl +:+ nl)];
    [AIndent indent; AStr "func (m *"; AStr messageGoType; AStr ") "; AStr fieldGoName; AStr "() "; AStr itGoType; AStr (" {" +:+ nl)];
    [AIndent (next indent); AStr "return "; AStr itGoType; AStr "(zeropb.GetRepeatedNonPacked(m.buf, "; AStr offsets_expr; AStr ", "; AInt (getNumber f); AStr ("))" +:+ nl)];
    [AIndent indent; AStr ("}" +:+ nl +:+ nl)];
    [AIndent indent; AStr "func (m *"; AStr messageGoType; AStr ") AppendTo"; AStr fieldGoName; AStr "(x "; AStr fieldGoType; AStr (") {" +:+ nl)];
    [AIndent (next indent); AStr ("buf := x.Encode()" +:+ nl)];
    [AIndent (next indent); AStr "zeropb.AppendBytes(&m.buf, "; AStr offsets_expr; AStr ", "; AInt (getNumber f); AStr (", buf)" +:+ nl)];
    [AIndent indent; AStr ("}" +:+ nl +:+ nl)] ].

(** generate.go:61-66 *)
Definition largestFieldID (fs : list (option field)) : Z :=
  fold_left (fun largest f => if largest <? getNumber f then getNumber f else largest) fs 0.

(** generate.go:105-121: the accessors of one field. *)
Definition generateField (st : tree) (indent : Z) (messageGoType : string) (f : option field) : res tree :=
  match f with
  | None => Ok st
  | Some _ =>
    let l := getLabel f in
    if (l =? LABEL_OPTIONAL) || (l =? LABEL_REQUIRED) then
      if getType f =? TYPE_MESSAGE then generateMessageField st indent messageGoType f
      else generateSimpleField st indent messageGoType f
    else if l =? LABEL_REPEATED then
      if getType f =? TYPE_MESSAGE then generateRepeatedMessageField st indent messageGoType f
      else Ok st
    else Ok st
  end.

(** generate.go:58-123.  The array length is computed in int32. *)
Definition generateMessage (st : tree) (indent : Z) (m : descriptor) : res tree :=
  let messageGoType := default "" (d_name m) in
  let* st := puts st [
    [AIndent indent; AStr "type "; AStr messageGoType; AStr (" struct {" +:+ nl)];
    [AIndent (next indent); AStr ("buf []byte" +:+ nl)];
    [AIndent (next indent); AStr ("offsets struct {" +:+ nl)];
    [AIndent (next (next indent)); AStr "a ["; AInt (i32 (largestFieldID (d_fields m) + 1)); AStr ("]uint16" +:+ nl)];
    [AIndent (next (next indent)); AStr ("m map[int]uint64" +:+ nl)];
    [AIndent (next indent); AStr ("}" +:+ nl)];
    [AIndent indent; AStr ("}" +:+ nl +:+ nl)];
    [AIndent indent; AStr "var repeatedFields_"; AStr messageGoType; AStr (" = zeropb.RepeatedFields{" +:+ nl)] ] in
  let* st := for_each st (d_fields m) (fun st f =>
    if getLabel f =? LABEL_REPEATED then
      put st [AIndent (next indent); AInt (getNumber f); AStr (": struct{}{}," +:+ nl)]
    else Ok st) in
  let* st := puts st [
    [AIndent indent; AStr ("}" +:+ nl +:+ nl)];
    [AIndent indent; AStr "func (m *"; AStr messageGoType; AStr (") Encode() []byte {" +:+ nl)];
    [AIndent (next indent); AStr ("return m.buf" +:+ nl)];
    [AIndent indent; AStr ("}" +:+ nl +:+ nl)];
    [AIndent indent; AStr "func (m *"; AStr messageGoType; AStr (") Decode(buf []byte) error {" +:+ nl)];
    [AIndent (next indent); AStr ("m.buf = buf" +:+ nl)];
    [AIndent (next indent); AStr "return zeropb.Decode(m.buf, "; AStr offsets_expr; AStr ", repeatedFields_"; AStr messageGoType; AStr (")" +:+ nl)];
    [AIndent indent; AStr ("}" +:+ nl +:+ nl)];
    [AIndent indent; AStr "func (m *"; AStr messageGoType; AStr (") Reset(buf []byte) {" +:+ nl)];
    [AIndent (next indent); AStr ("if len(buf) > 0 {" +:+ nl)];
    [AIndent (next (next indent)); AStr ("panic(`buf must be empty`)" +:+ nl)];
    [AIndent (next indent); AStr ("}" +:+ nl)];
    [AIndent (next indent); AStr ("m.buf = buf" +:+ nl)];
    [AIndent (next indent); AStr offsets_expr; AStr (".Clear()" +:+ nl)];
    [AIndent indent; AStr ("}" +:+ nl +:+ nl)] ] in
  for_each st (d_fields m) (fun st f => generateField st indent messageGoType f).

(** strings.ReplaceAll for a non-empty [old]: non-overlapping occurrences from
    the left. *)
Fixpoint strip_prefix (p s : string) : option string :=
  match p, s with
  | "", _ => Some s
  | String a p, String b s => if Ascii.eqb a b then strip_prefix p s else None
  | _, _ => None
  end%string.
Fixpoint replace_all (fuel : nat) (old new s : string) : string :=
  match fuel with
  | O => s
  | S fuel =>
    match strip_prefix old s with
    | Some r => new +:+ replace_all fuel old new r
    | None => match s with "" => "" | String c s => String c (replace_all fuel old new s) end
    end
  end%string.
Definition ReplaceAll (s old new : string) : string := replace_all (S (String.length s)) old new s.

(** generate.go:36-56; the result is the name and the content of the file.
    The error result is always nil. *)
Definition dquote : string := String "034" "".
Definition generateFile (req : file) : res (string * string) :=
  let st := mkST "" "  " None in
  let indent := 0 in
  let* st := puts st [
    [AIndent indent; AStr ("// Code generated by protoc-gen-zeropb. DO NOT EDIT." +:+ nl +:+ nl)];
    [AIndent indent; AStr "package "; AStr (default "" (fl_package req)); AStr (nl +:+ nl)];
    [AIndent indent; AStr ("import " +:+ dquote +:+ "github.com/danhhz/zeropb" +:+ dquote); AStr (nl +:+ nl)] ] in
  let* st := for_each st (fl_messages req) (fun st m =>
    match m with None => Ok st | Some m => generateMessage st indent m end) in
  Ok (ReplaceAll (default "" (fl_name req)) ".proto" ".zeropb.go", st_w st).

(** generate.go:11-32: name and content of each file of the response. *)
Fixpoint generate_files (wanted : list string) (ps : list (option file)) : res (list (string * string)) :=
  match ps with
  | [] => Ok []
  | None :: ps => generate_files wanted ps
  | Some f :: ps =>
    if existsb (String.eqb (default "" (fl_name f))) wanted then
      let* r := generateFile f in
      let* rs := generate_files wanted ps in Ok (r :: rs)
    else generate_files wanted ps
  end.
Definition Generate (req : request) : res (list (string * string)) :=
  generate_files (rq_files req) (rq_protos req).

(** * Schemas the generator is meant for, and what they declare

    Specification of the input side: descriptors as protoc produces them.  Only
    the descriptor types (Gen.v) and their protobuf accessors are used. *)
From Verif Require Import Gen GoLang GenApi Spec.

(** Protobuf language specification: letter, then letters, digits, underscores. *)
Definition proto_name (s : string) : Prop :=
  match s with
  | EmptyString => False
  | String c s => letter c = true /\ c <> "_"%char /\ name_chars s = true
  end.

(** [t] is the last component of the dotted name [s]. *)
Fixpoint no_dot (s : string) : Prop :=
  match s with EmptyString => True | String c s => c <> "."%char /\ no_dot s end.
Definition last_component (s t : string) : Prop :=
  no_dot t /\ (s = t \/ exists p, s = p +:+ "." +:+ t).

(** The type of the values of a non-repeated field, by its declared type
    (descriptor.proto, FieldDescriptorProto.Type), and the corresponding Go type.
    An enum is handled as uint32. *)
Definition declared_type (t : Z) : option (ptype * gotype) :=
  match t with
  | 1 => Some (PDouble, GName "float64") | 2 => Some (PFloat, GName "float32")
  | 3 => Some (PInt64, GName "int64") | 4 => Some (PUint64, GName "uint64") | 5 => Some (PInt32, GName "int32")
  | 6 => Some (PFixed64, GName "uint64") | 7 => Some (PFixed32, GName "uint32") | 8 => Some (PBool, GName "bool")
  | 9 => Some (PString, GName "string") | 12 => Some (PBytes, GSlice (GName "byte"))
  | 13 => Some (PUint32, GName "uint32") | 14 => Some (PUint32, GName "uint32")
  | 15 => Some (PSfixed32, GName "int32") | 16 => Some (PSfixed64, GName "int64")
  | 17 => Some (PSint32, GName "int32") | 18 => Some (PSint64, GName "int64")
  | _ => None
  end.

(** What a field asks for: label 1 or 2 is a single value, 3 a repeated one; type
    11 is a message. *)
Definition single (f : option field) : Prop := getLabel f = 1 \/ getLabel f = 2.
Definition repeated (f : option field) : Prop := getLabel f = 3.
Definition message_typed (f : option field) (t : string) : Prop := getType f = 11 /\ last_component (getTypeName f) t.

(** A field protoc would produce, except for groups (type 10). *)
Definition good_field (f : option field) : Prop :=
  f = None \/
  proto_name (getName f) /\ 1 <= getNumber f < 2 ^ 29 /\ (single f \/ repeated f) /\
  ((exists t, message_typed f t /\ identifier t) \/ is_Some (declared_type (getType f))).

Definition good_message (d : descriptor) : Prop :=
  identifier (default "" (d_name d)) /\ Forall good_field (d_fields d).

Definition good_file (f : file) : Prop :=
  identifier (default "" (fl_package f)) /\
  Forall (fun d => match d with Some d => good_message d | None => True end) (fl_messages f).

(** The message type a descriptor declares: the array has a cell for each number
    up to the largest one; the repeated fields. *)
Definition is_mtype (d : descriptor) (mt : mtype) : Prop :=
  (forall f, f ∈ d_fields d -> getNumber f < Z.of_nat (alen mt)) /\
  (alen mt = 1%nat \/ exists f, f ∈ d_fields d /\ getNumber f + 1 = Z.of_nat (alen mt)) /\
  (forall n, In n (reps mt) <-> exists f, f ∈ d_fields d /\ repeated f /\ getNumber f = n).

(** ** Names in the generated code *)

(** The pieces of [s] between the occurrences of [c]. *)
Fixpoint split (c : ascii) (s : string) : list string :=
  match s with
  | EmptyString => [""]
  | String a s =>
    if Ascii.eqb a c then "" :: split c s
    else match split c s with w :: ws => String a w :: ws | [] => [String a ""] end
  end.

(** The first letter in upper case. *)
Definition capital (c : ascii) : ascii :=
  if (97 <=? code c) && (code c <=? 122) then ascii_of_nat (nat_of_ascii c - 32) else c.
Definition capitalise (w : string) : string :=
  match w with EmptyString => "" | String c w => String (capital c) w end.

(** The Go name of a field: its words joined in camel case. *)
Definition camel (s : string) : string := sconcat (map capitalise (split "_" s)).
(** The Go name of a message type: the last part of its qualified name. *)
Definition base_name (s : string) : string := List.last (split "." s) "".

(** The messages of the files that make up a package. *)
Definition somes {A} (l : list (option A)) : list A := omap id l.
Definition messages (fs : list file) : list descriptor := List.concat (map (fun f => somes (fl_messages f)) fs).
Definition mname (d : descriptor) : string := default "" (d_name d).

(** The names a message adds to its package: its type, its table of repeated
    fields, and an iterator type for each repeated field of message type. *)
Definition iterator (d : descriptor) (f : option field) : string :=
  mname d +:+ base_name (getTypeName f) +:+ "Iterator".
Definition repeated_messages (d : descriptor) : list (option field) :=
  List.filter (fun f => (getLabel f =? 3) && (getType f =? 11)) (d_fields d).
Definition package_names (d : descriptor) : list string :=
  [mname d; "repeatedFields_" +:+ mname d] ++ map (iterator d) (repeated_messages d).

(** The methods of a message. *)
Definition accessors (f : option field) : list string :=
  match f with
  | None => []
  | Some _ =>
    if getLabel f =? 3 then
      if getType f =? 11 then [camel (getName f); "AppendTo" +:+ camel (getName f)] else []
    else [camel (getName f); "Set" +:+ camel (getName f)]
  end.
Definition methods (d : descriptor) : list string :=
  ["Encode"; "Decode"; "Reset"] ++ List.concat (map accessors (d_fields d)).

(** Names with a meaning in the generated code: those every message uses, those a
    field of message type uses, and the Go type of a single field. *)
Definition always : list string :=
  ["_"; "init"; "zeropb"; "len"; "panic"; "byte"; "error"; "int"; "uint16"; "uint64"].
Definition message_words : list string := ["nil"; "true"; "false"; "bool"].
Definition used_word (fs : list file) (x : string) : Prop :=
  x ∈ always \/
  exists d f, d ∈ messages fs /\ f ∈ d_fields d /\ f <> None /\
    ((getType f = 11 /\ x ∈ message_words) \/
     (single f /\ exists T, declared_type (getType f) = Some (T, GName x))).

(** Files (of one package) whose names do not clash and whose message types are
    all declared in these files. *)
Record clash_free (fs : list file) : Prop := {
  cf_some : fs <> [] /\ Forall (fun f => somes (fl_messages f) <> []) fs;
  cf_package : forall f g, f ∈ fs -> g ∈ fs -> default "" (fl_package f) = default "" (fl_package g);
  cf_package_name : Forall (fun f => default "" (fl_package f) <> "_" /\ default "" (fl_package f) <> "main") fs;
  cf_names : NoDup (List.concat (map package_names (messages fs)));
  cf_words : forall x, x ∈ List.concat (map package_names (messages fs)) -> ~ used_word fs x;
  cf_methods : Forall (fun d => NoDup (methods d)) (messages fs);
  cf_types : forall d f, d ∈ messages fs -> f ∈ d_fields d -> f <> None -> getType f = 11 ->
    base_name (getTypeName f) ∈ map mname (messages fs);
  cf_keys : Forall (fun d => NoDup (map getNumber (List.filter (fun f => getLabel f =? 3) (d_fields d)))) (messages fs) }.

(** ** What a client of the generated package uses *)

(** The message type of the generated struct: an array with a cell for each number
    up to the largest declared one, and the table of the repeated fields. *)
Definition mtype_of (d : descriptor) : mtype :=
  mkMtype (S (Z.to_nat (fold_right Z.max 0 (map getNumber (d_fields d)))))
          (map getNumber (List.filter (fun f => getLabel f =? 3) (d_fields d))).

(** Protobuf requires the fields of a message to have different numbers. *)
Definition distinct_numbers (d : descriptor) : Prop := NoDup (map (fun f => getNumber (Some f)) (somes (d_fields d))).

(** The declared field with a number, and what its accessors do. *)
Definition field_at (d : descriptor) (k : Z) : option field :=
  find (fun f => getNumber (Some f) =? k) (somes (d_fields d)).
Definition kind_of (f : field) : option kind :=
  if getLabel (Some f) =? 3 then
    if getType (Some f) =? 11 then Some KRepeated else None      (* repeated scalars have no accessors *)
  else if getType (Some f) =? 11 then Some (KSingle PBytes)
  else match declared_type (getType (Some f)) with Some (T, _) => Some (KSingle T) | None => None end.
Definition schema_of (d : descriptor) : schema := fun k =>
  match field_at d k with Some f => kind_of f | None => None end.

(** [gs] are the syntax trees of the files generated for [fs]. *)
Definition generated (fs : list file) (gs : list gofile) : Prop :=
  Forall2 (fun f g => exists name content, generateFile f = Ok (name, content) /\ parse content = Some g) fs gs.
Definition decls (gs : list gofile) : list decl := List.concat (map gf_decls gs).

(** ** Requests *)

(** The files asked for, in the order of the descriptors. *)
Definition requested (r : request) : list file :=
  List.filter (fun f => bool_decide (default "" (fl_name f) ∈ rq_files r)) (somes (rq_protos r)).

(** A field the generator has no accessors for and does not skip: one value, of a
    type that is neither a message nor one of the simple types. *)
Definition unsupported_field (f : option field) : Prop :=
  f <> None /\ single f /\ getType f <> 11 /\ declared_type (getType f) = None.
Definition unsupported_file (f : file) : Prop :=
  exists d x, d ∈ somes (fl_messages f) /\ x ∈ d_fields d /\ unsupported_field x.

(** ** Words *)

(** The maximal runs of kept elements between dropped ones (also empty runs). *)
Fixpoint runs {R} (keep : R -> bool) (s : list R) : list (list R) :=
  match s with
  | [] => [[]]
  | r :: s =>
    if keep r then match runs keep s with w :: ws => (r :: w) :: ws | [] => [[r]] end
    else [] :: runs keep s
  end.
Definition with_first {R} (title : R -> R) (w : list R) : list R :=
  match w with [] => [] | r :: w => title r :: w end.

(** ** File names *)
Fixpoint join (sep : string) (ps : list string) : string :=
  match ps with [] => "" | [p] => p | p :: ps => p +:+ sep +:+ join sep ps end.
Definition contains (p s : string) : Prop := exists a b, s = a +:+ p +:+ b.
(** [s'] is [s] with ".zeropb.go" for every ".proto". *)
Definition renamed (s s' : string) : Prop :=
  exists ps, ps <> [] /\ s = join ".proto" ps /\ s' = join ".zeropb.go" ps /\ Forall (fun p => ~ contains ".proto" p) ps.

(** ** Writers *)
(** The most general writer: it may answer depending on everything written. *)
Definition any_writer {E} (resp : list string -> option E) : writer (list string) E :=
  fun h s => (h ++ [s], resp (h ++ [s])).

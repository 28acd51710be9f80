(** * Text and WriteText of the test message (golden/testzeropb/string.go), and
    what they should print *)
From Verif Require Import Gen.
From Verif Require Export Tree.

(** A Go string as a Coq string. *)
Definition gostring (bs : list Z) : string := string_of_list_ascii (map (fun b => ascii_of_nat (Z.to_nat b)) bs).

Section Formats.
(** fmt's %v of a float64 and of a float32, given by their bits, and
    strconv.Quote; not modelled further. *)
Context (fmt64 fmt32 : Z -> string) (quote : string -> string).

(** ** The code *)

(** golden/testzeropb/test.zeropb.go:7-33 *)
Definition test_mt : mtype := mkMtype 35 [18; 19; 20; 21; 22; 23; 24; 25; 26; 27; 28; 29; 30; 31; 32; 33; 34].

(** One of the sixteen [if _, ok := offsets.Get(n); ok { Fprintf(..) }] of
    string.go:28-75; the getter is only called if the field is present. *)
Definition put (m : msg) (w : string) (n : Z) (T : ptype) (before : string) (fmt : pval -> string) : res string :=
  let* (_, ok) := offsets_get (moff m) n in
  if (ok : bool) then let* v := m_get T m n in Ok (w +:+ before +:+ fmt v +:+ " ") else Ok w.

(** The verbs; a value of another type cannot occur. *)
Definition verb_t (v : pval) : string := match v with VBool true => "true" | VBool false => "false" | _ => "" end.
Definition verb_d (v : pval) : string := match v with VNum z => itoa z | _ => "" end.
Definition verb_v64 (v : pval) : string := match v with VNum z => fmt64 z | _ => "" end.
Definition verb_v32 (v : pval) : string := match v with VNum z => fmt32 z | _ => "" end.
Definition verb_s (v : pval) : string := match v with VString s => gostring s | _ => "" end.
Definition verb_q (v : pval) : string := match v with VBytes s => quote (gostring (default [] s)) | _ => "" end.

(** string.go:86-95: the loop over the repeated field, at most [n] times;
    [text] is the recursive call. *)
Fixpoint text_loop (n : nat) (text : msg -> string -> res string) (it : option (list Z)) (sub : msg) (w : string) : res string :=
  match n with
  | O => OutOfFuel
  | S n =>
    let* (it, ok, er, sub) := it_Next test_mt it 34 sub in
    match er with
    | Some _ => Panic
    | None =>
      if (ok : bool) then
        let* w := text sub (w +:+ "messages=<") in
        text_loop n text it sub (w +:+ "> ")
      else Ok w
    end
  end.

(** string.go:24-96.  Simplification: the io.Writer is the string it has received
    (Text, string.go:17-21, passes a strings.Builder; what Write returns is
    ignored by the code anyway).  [fuel] bounds the depth of the recursion. *)
Fixpoint WriteText (fuel : nat) (m : msg) (w : string) : res string :=
  match fuel with
  | O => OutOfFuel
  | S fuel =>
    let* w := put m w 1 PBool "bool=" verb_t in
    let* w := put m w 2 PInt32 "int32=" verb_d in
    let* w := put m w 3 PInt64 "int64=" verb_d in
    let* w := put m w 4 PUint32 "uint32=" verb_d in
    let* w := put m w 5 PUint64 "uint64=" verb_d in
    let* w := put m w 6 PSint32 "sint32=" verb_d in
    let* w := put m w 7 PSint64 "sint64=" verb_d in
    let* w := put m w 8 PFixed32 "fixed32=" verb_d in
    let* w := put m w 9 PFixed64 "fixed64=" verb_d in
    let* w := put m w 10 PSfixed32 "sfixed32=" verb_d in
    let* w := put m w 11 PSfixed64 "sfixed64=" verb_d in
    let* w := put m w 12 PDouble "double=" verb_v64 in
    let* w := put m w 13 PFloat "float=" verb_v32 in
    let* w := put m w 14 PString "string=" verb_s in
    let* w := put m w 15 PBytes "byte_array=" verb_q in
    let* w := put m w 16 PUint32 "enum=" verb_d in
    let* (ok, er, sub) := m_Message test_mt m 17 (msg_zero test_mt) in
    match er with
    | Some _ => Panic
    | None =>
      let* w := if (ok : bool) then
        let* w := WriteText fuel sub (w +:+ "message=<") in Ok (w +:+ "> ")
        else Ok w in
      let* it := m_Iter m 34 in
      text_loop (fuel_of (mbuf m)) (WriteText fuel) it sub w
    end
  end.

(** string.go:17-21 *)
Definition Text (fuel : nat) (m : msg) : res string := WriteText fuel m "".

(** ** What it should print *)

(** The declared scalar fields of golden/test.proto, in the order of their numbers. *)
Definition test_scalars : list (Z * ptype * string) :=
  [(1, PBool, "bool"); (2, PInt32, "int32"); (3, PInt64, "int64"); (4, PUint32, "uint32"); (5, PUint64, "uint64");
   (6, PSint32, "sint32"); (7, PSint64, "sint64"); (8, PFixed32, "fixed32"); (9, PFixed64, "fixed64");
   (10, PSfixed32, "sfixed32"); (11, PSfixed64, "sfixed64"); (12, PDouble, "double"); (13, PFloat, "float");
   (14, PString, "string"); (15, PBytes, "byte_array"); (16, PUint32, "enum")].

(** The message type of test.proto: field 17 is a message, 34 a list of messages. *)
Definition test_env : env :=
  mkEnv (fun _ => test_mt)
        (fun _ f => if f =? 17 then Some (TMsg 0) else if f =? 34 then Some (TRep 0)
                    else match List.find (fun x => x.1.1 =? f) test_scalars with Some x => Some (TScalar x.1.2) | None => None end).

(** The text of a value. *)
Definition show (T : ptype) (v : pval) : string :=
  match T, v with
  | PDouble, VNum z => fmt64 z
  | PFloat, VNum z => fmt32 z
  | _, VNum z => itoa z
  | _, VBool b => if b then "true" else "false"
  | _, VString s => gostring s
  | _, VBytes s => quote (gostring (default [] s))
  end.

(** The scalars the tree holds, as name=value followed by a space. *)
Definition scalars_text (t : tree) : string :=
  sconcat (map (fun x => match scalar_at t x.1.1 with
                         | Some v => x.2 +:+ "=" +:+ show x.1.2 v +:+ " "
                         | None => ""
                         end) test_scalars).

(** The text of a tree: its scalars in the order of the field numbers, then the
    sub-message if there is one, then the elements of the repeated field, each in
    angle brackets. *)
Inductive text_of : tree -> string -> Prop :=
| TextOf t sub els :
    Forall2 text_of (option_list (sub_at t 17)) sub ->
    Forall2 text_of (elems_at t 34) els ->
    text_of t (scalars_text t +:+
               sconcat (map (fun s => "message=<" +:+ s +:+ "> ") sub) +:+
               sconcat (map (fun s => "messages=<" +:+ s +:+ "> ") els)).
End Formats.

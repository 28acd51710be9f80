(** * A subset of Go: tokens, syntax trees, parser

    Specification of the language of the generated files, written from the Go
    language specification (lexical elements, automatic semicolons, grammar),
    without using any definition of the generator.  The subset is what one needs
    to read the generated code; texts outside it are rejected ([None]). *)
From Verif Require Export GoBase.
From stdpp Require Export strings.
From Coq Require Export Ascii String.
Export ListNotations.
#[global] Open Scope string_scope.
#[global] Open Scope list_scope.
#[global] Open Scope Z_scope.

(** ** Tokens *)
Inductive token :=
| TId (s : string) | TKw (s : string) | TNum (z : Z) | TLit (s : string)
| LP | RP | LB | RB | LC | RC              (* parentheses, brackets, braces *)
| Comma | Semi | Colon | Dot | Star | Amp | Gt | Eq | EqEq | Define.

(** Go spec, "Keywords". *)
Definition keywords : list string :=
  ["break"; "default"; "func"; "interface"; "select"; "case"; "defer"; "go"; "map"; "struct"; "chan"; "else";
   "goto"; "package"; "switch"; "const"; "fallthrough"; "if"; "range"; "type"; "continue"; "for"; "import";
   "return"; "var"].
Definition is_keyword (s : string) : bool := existsb (String.eqb s) keywords.
Definition word (s : string) : token := if is_keyword s then TKw s else TId s.

(** Go spec, "Semicolons": a newline after one of these tokens is a semicolon. *)
Definition ends_line (t : token) : bool :=
  match t with
  | TId _ | TNum _ | TLit _ | RP | RB | RC => true
  | TKw s => existsb (String.eqb s) ["break"; "continue"; "fallthrough"; "return"]
  | _ => false
  end.

Definition code (c : ascii) : Z := Z.of_nat (nat_of_ascii c).
Definition letter (c : ascii) : bool :=
  (65 <=? code c) && (code c <=? 90) || (97 <=? code c) && (code c <=? 122) || (code c =? 95).
Definition decimal (c : ascii) : bool := (48 <=? code c) && (code c <=? 57).

Definition punct (c : ascii) : option token :=
  match code c with
  | 40 => Some LP | 41 => Some RP | 91 => Some LB | 93 => Some RB | 123 => Some LC | 125 => Some RC
  | 44 => Some Comma | 59 => Some Semi | 46 => Some Dot | 42 => Some Star | 38 => Some Amp | 62 => Some Gt
  | _ => None
  end.

(** The state of the lexer inside a token. *)
Inductive lstate :=
| L0 | LId (s : string) | LNum (z : Z) | LZero | LStr (s : string) | LRaw (s : string)
| LSlash | LComment | LColon | LEq.

Definition snoc (s : string) (c : ascii) : string := s +:+ String c "".

Definition emit (t : token) (l : option (list token)) : option (list token) :=
  match l with Some l => Some (t :: l) | None => None end.

(** [semi]: whether a newline here is a semicolon. Only decimal literals and
    string literals without escapes belong to the subset. *)
Fixpoint lex (st : lstate) (semi : bool) (s : string) {struct s} : option (list token) :=
  match s with
  | EmptyString =>
    match st with
    | L0 | LComment => Some (if semi then [Semi] else [])
    | LId w => Some (word w :: if ends_line (word w) then [Semi] else [])
    | LNum z => Some [TNum z; Semi]
    | LZero => Some [TNum 0; Semi]
    | LColon => Some [Colon]
    | LEq => Some [Eq]
    | LStr _ | LRaw _ | LSlash => None
    end
  | String c s =>
    let start (semi : bool) : option (list token) :=
      if (code c =? 32) || (code c =? 9) || (code c =? 13) then lex L0 semi s
      else if code c =? 10 then (if semi then emit Semi (lex L0 false s) else lex L0 false s)
      else if letter c then lex (LId (String c "")) semi s
      else if code c =? 48 then lex LZero semi s
      else if decimal c then lex (LNum (code c - 48)) semi s
      else if code c =? 34 then lex (LStr "") semi s
      else if code c =? 96 then lex (LRaw "") semi s
      else if code c =? 47 then lex LSlash semi s
      else if code c =? 58 then lex LColon semi s
      else if code c =? 61 then lex LEq semi s
      else match punct c with
           | Some t => emit t (lex L0 (ends_line t) s)
           | None => None
           end in
    match st with
    | L0 => start semi
    | LId w =>
      if letter c || decimal c then lex (LId (snoc w c)) semi s
      else emit (word w) (start (ends_line (word w)))
    | LNum z =>
      if decimal c then lex (LNum (10 * z + (code c - 48))) semi s
      else if letter c then None
      else emit (TNum z) (start true)
    | LZero => if decimal c || letter c then None else emit (TNum 0) (start true)
    | LStr w =>
      if code c =? 34 then emit (TLit w) (lex L0 true s)
      else if (code c =? 92) || (code c =? 10) then None
      else lex (LStr (snoc w c)) semi s
    | LRaw w =>
      if code c =? 96 then emit (TLit w) (lex L0 true s) else lex (LRaw (snoc w c)) semi s
    | LSlash => if code c =? 47 then lex LComment semi s else None
    | LComment => if code c =? 10 then start semi else lex LComment semi s
    | LColon => if code c =? 61 then emit Define (lex L0 false s) else emit Colon (start false)
    | LEq => if code c =? 61 then emit EqEq (lex L0 false s) else emit Eq (start false)
    end
  end.

Definition tokens (s : string) : option (list token) := lex L0 false s.

(** Go spec, "Identifiers" (the ASCII ones); keywords are not identifiers. *)
Fixpoint name_chars (s : string) : bool :=
  match s with EmptyString => true | String c s => (letter c || decimal c) && name_chars s end.
Definition identifier (s : string) : Prop :=
  match s with EmptyString => False | String c s => letter c = true /\ name_chars s = true end /\ is_keyword s = false.

(** ** Syntax *)
Inductive gotype :=
| GName (s : string) | GQual (pkg s : string) | GPtr (t : gotype) | GSlice (t : gotype)
| GArr (n : Z) (t : gotype) | GMapOf (k v : gotype) | GStruct (fs : list (string * gotype)).

Inductive binop := OpEq | OpGt.
Inductive expr :=
| EId (s : string) | EInt (z : Z) | ELit (s : string)
| ESel (e : expr) (s : string)
| ECall (e : expr) (args : list expr)
| EAll (e : expr)                          (* e[:] *)
| EAddr (e : expr) | EDeref (e : expr)
| EBin (op : binop) (e1 e2 : expr).

Inductive stmt :=
| SReturn (es : list expr)
| SVar (x : string) (t : gotype)
| SIf (e : expr) (body : list stmt)
| SAssign (ls rs : list expr)
| SDefine (ls rs : list expr)
| SExpr (e : expr).

(** [DSet]: a variable initialised with a composite literal whose keys are
    integers and whose elements are all [struct{}{}]. *)
Inductive decl :=
| DType (x : string) (t : gotype)
| DSet (x : string) (t : gotype) (keys : list Z)
| DFunc (recv : string) (rtype : gotype) (name : string) (params : list (string * gotype))
        (results : list gotype) (body : list stmt).

Record gofile := mkGoFile { gf_package : string; gf_imports : list string; gf_decls : list decl }.

(** ** Parser

    Recursive descent; [n] bounds the depth of recursion and the length of
    lists. *)
Notation parser A := (list token -> option (A * list token)).

Fixpoint parse_type (n : nat) : parser gotype :=
  fun ts =>
  match n with
  | O => None
  | S n =>
    match ts with
    | TId p :: Dot :: TId x :: ts => Some (GQual p x, ts)
    | TId x :: ts => Some (GName x, ts)
    | Star :: ts => match parse_type n ts with Some (t, ts) => Some (GPtr t, ts) | None => None end
    | LB :: RB :: ts => match parse_type n ts with Some (t, ts) => Some (GSlice t, ts) | None => None end
    | LB :: TNum z :: RB :: ts =>
      match parse_type n ts with Some (t, ts) => Some (GArr z t, ts) | None => None end
    | TKw "map" :: LB :: ts =>
      match parse_type n ts with
      | Some (k, RB :: ts) =>
        match parse_type n ts with Some (v, ts) => Some (GMapOf k v, ts) | None => None end
      | _ => None
      end
    | TKw "struct" :: LC :: ts =>
      match parse_fields n ts with Some (fs, ts) => Some (GStruct fs, ts) | None => None end
    | _ => None
    end
  end
with parse_fields (n : nat) : parser (list (string * gotype)) :=
  fun ts =>
  match n with
  | O => None
  | S n =>
    match ts with
    | RC :: ts => Some ([], ts)
    | TId x :: ts =>
      match parse_type n ts with
      | Some (t, Semi :: ts) =>
        match parse_fields n ts with Some (fs, ts) => Some ((x, t) :: fs, ts) | None => None end
      | Some (t, RC :: ts) => Some ([(x, t)], ts)
      | _ => None
      end
    | _ => None
    end
  end.

Fixpoint parse_unary (n : nat) : parser expr :=
  fun ts =>
  match n with
  | O => None
  | S n =>
    match ts with
    | Amp :: ts => match parse_unary n ts with Some (e, ts) => Some (EAddr e, ts) | None => None end
    | Star :: ts => match parse_unary n ts with Some (e, ts) => Some (EDeref e, ts) | None => None end
    | TId x :: ts => parse_suffix n (EId x) ts
    | TNum z :: ts => parse_suffix n (EInt z) ts
    | TLit s :: ts => parse_suffix n (ELit s) ts
    | LP :: ts =>
      match parse_expr n ts with
      | Some (e, RP :: ts) => parse_suffix n e ts
      | _ => None
      end
    | _ => None
    end
  end
with parse_suffix (n : nat) (e : expr) : parser expr :=
  fun ts =>
  match n with
  | O => None
  | S n =>
    match ts with
    | Dot :: TId x :: ts => parse_suffix n (ESel e x) ts
    | LB :: Colon :: RB :: ts => parse_suffix n (EAll e) ts
    | LP :: RP :: ts => parse_suffix n (ECall e []) ts
    | LP :: ts =>
      match parse_exprs n ts with
      | Some (es, RP :: ts) => parse_suffix n (ECall e es) ts
      | _ => None
      end
    | _ => Some (e, ts)
    end
  end
with parse_expr (n : nat) : parser expr :=
  fun ts =>
  match n with
  | O => None
  | S n =>
    match parse_unary n ts with
    | Some (e1, EqEq :: ts) =>
      match parse_unary n ts with Some (e2, ts) => Some (EBin OpEq e1 e2, ts) | None => None end
    | Some (e1, Gt :: ts) =>
      match parse_unary n ts with Some (e2, ts) => Some (EBin OpGt e1 e2, ts) | None => None end
    | r => r
    end
  end
with parse_exprs (n : nat) : parser (list expr) :=
  fun ts =>
  match n with
  | O => None
  | S n =>
    match parse_expr n ts with
    | Some (e, Comma :: ts) =>
      match parse_exprs n ts with Some (es, ts) => Some (e :: es, ts) | None => None end
    | Some (e, ts) => Some ([e], ts)
    | None => None
    end
  end.

(** Statements up to the closing brace of the block. *)
Fixpoint parse_block (n : nat) : parser (list stmt) :=
  fun ts =>
  match n with
  | O => None
  | S n =>
    let rest (s : stmt) (ts : list token) :=
      match ts with
      | Semi :: ts => match parse_block n ts with Some (ss, ts) => Some (s :: ss, ts) | None => None end
      | RC :: ts => Some ([s], ts)
      | _ => None
      end in
    match ts with
    | RC :: ts => Some ([], ts)
    | TKw "return" :: ts =>
      match ts with
      | Semi :: _ | RC :: _ => rest (SReturn []) ts
      | _ => match parse_exprs n ts with Some (es, ts) => rest (SReturn es) ts | None => None end
      end
    | TKw "var" :: TId x :: ts =>
      match parse_type n ts with Some (t, ts) => rest (SVar x t) ts | None => None end
    | TKw "if" :: ts =>
      match parse_expr n ts with
      | Some (e, LC :: ts) =>
        match parse_block n ts with Some (b, ts) => rest (SIf e b) ts | None => None end
      | _ => None
      end
    | _ =>
      match parse_exprs n ts with
      | Some (ls, Eq :: ts) =>
        match parse_exprs n ts with Some (rs, ts) => rest (SAssign ls rs) ts | None => None end
      | Some (ls, Define :: ts) =>
        match parse_exprs n ts with Some (rs, ts) => rest (SDefine ls rs) ts | None => None end
      | Some ([e], ts) => rest (SExpr e) ts
      | _ => None
      end
    end
  end.

(** Parameters up to the closing parenthesis. *)
Fixpoint parse_params (n : nat) : parser (list (string * gotype)) :=
  fun ts =>
  match n with
  | O => None
  | S n =>
    match ts with
    | RP :: ts => Some ([], ts)
    | TId x :: ts =>
      match parse_type n ts with
      | Some (t, Comma :: ts) =>
        match parse_params n ts with Some (ps, ts) => Some ((x, t) :: ps, ts) | None => None end
      | Some (t, RP :: ts) => Some ([(x, t)], ts)
      | _ => None
      end
    | _ => None
    end
  end.

(** Result types up to the closing parenthesis. *)
Fixpoint parse_types (n : nat) : parser (list gotype) :=
  fun ts =>
  match n with
  | O => None
  | S n =>
    match parse_type n ts with
    | Some (t, Comma :: ts) =>
      match parse_types n ts with Some (l, ts) => Some (t :: l, ts) | None => None end
    | Some (t, RP :: ts) => Some ([t], ts)
    | _ => None
    end
  end.

Definition parse_results (n : nat) : parser (list gotype) :=
  fun ts =>
  match ts with
  | LC :: _ => Some ([], ts)
  | LP :: ts => parse_types n ts
  | _ => match parse_type n ts with Some (t, ts) => Some ([t], ts) | None => None end
  end.

(** Elements [k: struct{}{}] up to the closing brace. *)
Fixpoint parse_keys (n : nat) : parser (list Z) :=
  fun ts =>
  match n with
  | O => None
  | S n =>
    match ts with
    | RC :: ts => Some ([], ts)
    | TNum k :: Colon :: TKw "struct" :: LC :: RC :: LC :: RC :: Comma :: ts =>
      match parse_keys n ts with Some (ks, ts) => Some (k :: ks, ts) | None => None end
    | TNum k :: Colon :: TKw "struct" :: LC :: RC :: LC :: RC :: RC :: ts => Some ([k], ts)
    | _ => None
    end
  end.

Definition parse_decl (n : nat) : parser decl :=
  fun ts =>
  match ts with
  | TKw "type" :: TId x :: ts =>
    match parse_type n ts with Some (t, ts) => Some (DType x t, ts) | None => None end
  | TKw "var" :: TId x :: Eq :: ts =>
    match parse_type n ts with
    | Some (t, LC :: ts) =>
      match parse_keys n ts with Some (ks, ts) => Some (DSet x t ks, ts) | None => None end
    | _ => None
    end
  | TKw "func" :: LP :: TId r :: ts =>
    match parse_type n ts with
    | Some (rt, RP :: TId f :: LP :: ts) =>
      match parse_params n ts with
      | Some (ps, ts) =>
        match parse_results n ts with
        | Some (rs, LC :: ts) =>
          match parse_block n ts with Some (b, ts) => Some (DFunc r rt f ps rs b, ts) | None => None end
        | _ => None
        end
      | None => None
      end
    | _ => None
    end
  | _ => None
  end.

Fixpoint parse_decls (n : nat) (ts : list token) : option (list decl) :=
  match n with
  | O => None
  | S n =>
    match ts with
    | [] => Some []
    | _ =>
      match parse_decl n ts with
      | Some (d, Semi :: ts) => match parse_decls n ts with Some ds => Some (d :: ds) | None => None end
      | _ => None
      end
    end
  end.

Fixpoint parse_imports (n : nat) : parser (list string) :=
  fun ts =>
  match n with
  | O => None
  | S n =>
    match ts with
    | TKw "import" :: TLit p :: Semi :: ts =>
      match parse_imports n ts with Some (l, ts) => Some (p :: l, ts) | None => None end
    | _ => Some ([], ts)
    end
  end.

Definition parse_file (ts : list token) : option gofile :=
  let n := S (List.length ts) in
  match ts with
  | TKw "package" :: TId p :: Semi :: ts =>
    match parse_imports n ts with
    | Some (is, ts) =>
      match parse_decls n ts with Some ds => Some (mkGoFile p is ds) | None => None end
    | None => None
    end
  | _ => None
  end.

Definition parse (s : string) : option gofile :=
  match tokens s with Some ts => parse_file ts | None => None end.

(** ** Looking up declarations *)

(** The method [f] of the type [ty]. *)
Definition find_method (ds : list decl) (ty f : string) : option decl :=
  find (fun d => match d with
                 | DFunc _ (GPtr (GName t)) g _ _ _ => String.eqb t ty && String.eqb g f
                 | _ => false
                 end) ds.
Definition find_type (ds : list decl) (ty : string) : option gotype :=
  match find (fun d => match d with DType t _ => String.eqb t ty | _ => false end) ds with
  | Some (DType _ t) => Some t
  | _ => None
  end.
Definition find_set (ds : list decl) (x : string) : option (list Z) :=
  match find (fun d => match d with DSet y _ _ => String.eqb y x | _ => false end) ds with
  | Some (DSet _ _ ks) => Some ks
  | _ => None
  end.


(** * Which packages the Go compiler accepts

    Specification: the rules of the Go language specification for the subset of
    GoLang.v (declarations and scope, types, assignability, calls, statements,
    unused variables and imports, missing returns), against the exported
    signatures of package zeropb.  No definition of the generator is used.  What
    is outside the subset is rejected, so that an accepted package is one the
    compiler accepts, up to implementation limits (sizes of arrays and stack
    frames). *)
From Verif Require Export GoLang.

(** ** Types *)
Inductive ty :=
| TU (s : string)                         (* predeclared *)
| TN (s : string)                         (* declared in the package *)
| TZ (s : string)                         (* declared in package zeropb *)
| TPtr (t : ty) | TSlice (t : ty) | TArr (n : Z) (t : ty) | TMap (k v : ty)
| TStruct (fs : list (string * ty)).

Fixpoint ty_eqb (a b : ty) : bool :=
  match a, b with
  | TU x, TU y | TN x, TN y | TZ x, TZ y => String.eqb x y
  | TPtr a, TPtr b | TSlice a, TSlice b => ty_eqb a b
  | TArr n a, TArr m b => (n =? m) && ty_eqb a b
  | TMap k v, TMap k' v' => ty_eqb k k' && ty_eqb v v'
  | TStruct fs, TStruct gs =>
    (fix go fs gs :=
      match fs, gs with
      | [], [] => true
      | (x, a) :: fs, (y, b) :: gs => String.eqb x y && ty_eqb a b && go fs gs
      | _, _ => false
      end) fs gs
  | _, _ => false
  end.

Definition mem (x : string) (l : list string) : bool := existsb (String.eqb x) l.
Fixpoint distinct {A} (eqb : A -> A -> bool) (l : list A) : bool :=
  match l with [] => true | x :: l => negb (existsb (eqb x) l) && distinct eqb l end.

(** Go spec, "Predeclared identifiers": the types. *)
Definition universe_types : list string :=
  ["bool"; "byte"; "error"; "float32"; "float64"; "int"; "int32"; "int64"; "string"; "uint16"; "uint32"; "uint64"].

(** The import paths that can be resolved, with the package name they bind, and
    the types of package zeropb (zeropb.go:514, offsets.go:35). *)
Definition import_name (path : string) : option string :=
  if String.eqb path "github.com/danhhz/zeropb" then Some "zeropb" else None.
Definition zeropb_types : list string := ["Offsets"; "RepeatedFields"].

Definition bytes_ty : ty := TSlice (TU "byte").

(** zeropb.go:17-320, 411, 421, 472; offsets.go:42: parameters and results. *)
Definition getter (t : ty) : list ty * list ty := ([bytes_ty; TZ "Offsets"; TU "int"], [t]).
Definition setter (t : ty) : list ty * list ty := ([TPtr bytes_ty; TZ "Offsets"; TU "int"; t], []).
Definition zeropb_func (fn : string) : option (list ty * list ty) :=
  match fn with
  | "GetBool" => Some (getter (TU "bool")) | "GetInt32" => Some (getter (TU "int32"))
  | "GetInt64" => Some (getter (TU "int64")) | "GetUint32" => Some (getter (TU "uint32"))
  | "GetUint64" => Some (getter (TU "uint64")) | "GetZigZagInt32" => Some (getter (TU "int32"))
  | "GetZigZagInt64" => Some (getter (TU "int64")) | "GetFixedUint32" => Some (getter (TU "uint32"))
  | "GetFixedUint64" => Some (getter (TU "uint64")) | "GetFixedInt32" => Some (getter (TU "int32"))
  | "GetFixedInt64" => Some (getter (TU "int64")) | "GetFloat32" => Some (getter (TU "float32"))
  | "GetFloat64" => Some (getter (TU "float64")) | "GetString" => Some (getter (TU "string"))
  | "GetBytes" => Some (getter bytes_ty)
  | "SetBool" => Some (setter (TU "bool")) | "SetInt32" => Some (setter (TU "int32"))
  | "SetInt64" => Some (setter (TU "int64")) | "SetUint32" => Some (setter (TU "uint32"))
  | "SetUint64" => Some (setter (TU "uint64")) | "SetZigZagInt32" => Some (setter (TU "int32"))
  | "SetZigZagInt64" => Some (setter (TU "int64")) | "SetFixedUint32" => Some (setter (TU "uint32"))
  | "SetFixedUint64" => Some (setter (TU "uint64")) | "SetFixedInt32" => Some (setter (TU "int32"))
  | "SetFixedInt64" => Some (setter (TU "int64")) | "SetFloat32" => Some (setter (TU "float32"))
  | "SetFloat64" => Some (setter (TU "float64")) | "SetString" => Some (setter (TU "string"))
  | "SetBytes" => Some (setter bytes_ty)
  | "AppendBytes" => Some (setter bytes_ty)
  | "GetRepeatedNonPacked" => Some (getter bytes_ty)
  | "Decode" => Some ([bytes_ty; TZ "Offsets"; TZ "RepeatedFields"], [TU "error"])
  | "FindNextField" => Some ([bytes_ty; TU "int"], [bytes_ty; bytes_ty])
  | "WrapOffsets" => Some ([TSlice (TU "uint16"); TPtr (TMap (TU "int") (TU "uint64"))], [TZ "Offsets"])
  | _ => None
  end%string.

(** The exported methods without results of type Offsets used as statements
    (offsets.go:77). *)
Definition offsets_method (f : string) : option (list ty * list ty) :=
  if String.eqb f "Clear" then Some ([], []) else None.

(** ** Names of the package block *)
Definition decl_names (d : decl) : list string :=
  match d with DType x _ | DSet x _ _ => [x] | DFunc _ _ _ _ _ _ => [] end.

Section package.
(** All declarations of the package; the package names imported by the file
    being checked. *)
Context (ds : list decl) (imports : list string).
Definition pkg_names : list string := List.concat (map decl_names ds).

(** A type expression: identifiers are looked up in the package block, then in
    the universe block. *)
Fixpoint resolve (g : gotype) : option ty :=
  match g with
  | GName x =>
    if mem x pkg_names then match find_type ds x with Some _ => Some (TN x) | None => None end
    else if mem x universe_types then Some (TU x) else None
  | GQual p x =>
    if mem p imports && String.eqb p "zeropb" && mem x zeropb_types then Some (TZ x) else None
  | GPtr g => match resolve g with Some t => Some (TPtr t) | None => None end
  | GSlice g => match resolve g with Some t => Some (TSlice t) | None => None end
  | GArr n g => match resolve g with Some t => if 0 <=? n then Some (TArr n t) else None | None => None end
  | GMapOf k v =>
    match resolve k, resolve v with
    | Some (TU k), Some v => Some (TMap (TU k) v)      (* other comparable keys: outside the subset *)
    | _, _ => None
    end
  | GStruct fs =>
    match (fix go (fs : list (string * gotype)) : option (list (string * ty)) :=
             match fs with
             | [] => Some []
             | (x, g) :: fs =>
               match resolve g, go fs with Some t, Some ts => Some ((x, t) :: ts) | _, _ => None end
             end) fs with
    | Some ts => if distinct String.eqb (map fst ts) then Some (TStruct ts) else None
    | None => None
    end
  end.

(** The underlying type; a declared type whose definition is again a declared
    type is outside the subset. *)
Definition named (t : ty) : bool := match t with TU _ | TN _ | TZ _ => true | _ => false end.
Definition underlying (t : ty) : option ty :=
  match t with
  | TN x =>
    match find_type ds x with
    | Some g => match resolve g with Some t => if named t then None else Some t | None => None end
    | None => None
    end
  | TZ x => if String.eqb x "RepeatedFields" then Some (TMap (TU "int") (TStruct [])) else Some t
  | _ => Some t
  end.

(** Go spec, "Assignability". *)
Definition same_underlying (a b : ty) : bool :=
  match underlying a, underlying b with Some a, Some b => ty_eqb a b | _, _ => false end.
Definition assignable (v t : ty) : bool :=
  ty_eqb v t || (same_underlying v t && (negb (named v) || negb (named t))).

(** ** Expressions *)

(** A value of a type, and whether it is addressable; the results of a call;
    untyped constants; nil. *)
Inductive ety := EV (t : ty) (addr : bool) | EMulti (ts : list ty) | EConstInt (z : Z) | EConstBool | EConstStr | ENil.

Definition nilable (t : ty) : bool :=
  match underlying t with
  | Some (TPtr _) | Some (TSlice _) | Some (TMap _ _) => true
  | Some (TU x) => String.eqb x "error"
  | _ => false
  end.
(** Constants must fit an int of 32 bits, the smallest the language allows. *)
Definition fits (z : Z) (t : ty) : bool :=
  match t with TU x => String.eqb x "int" && (- 2 ^ 31 <=? z) && (z <? 2 ^ 31) | _ => false end.
Definition usable (e : ety) (t : ty) : bool :=
  match e with
  | EV v _ => assignable v t
  | EMulti _ => false
  | EConstInt z => fits z t
  | EConstBool => ty_eqb t (TU "bool")
  | EConstStr => ty_eqb t (TU "string")
  | ENil => nilable t
  end.
Fixpoint usables (es : list ety) (ts : list ty) : bool :=
  match es, ts with
  | [], [] => true
  | e :: es, t :: ts => usable e t && usables es ts
  | _, _ => false
  end.

Definition fields_of (t : ty) : option (list (string * ty)) :=
  match underlying t with Some (TStruct fs) => Some fs | _ => None end.
Definition field_type (fs : list (string * ty)) (x : string) : option ty :=
  match find (fun p => String.eqb p.1 x) fs with Some p => Some p.2 | None => None end.

Definition call (sig : option (list ty * list ty)) (args : list ety) : option ety :=
  match sig with
  | Some (ps, rs) =>
    if usables args ps then Some (match rs with [t] => EV t false | _ => EMulti rs end) else None
  | None => None
  end.
Fixpoint resolves (gs : list gotype) : option (list ty) :=
  match gs with
  | [] => Some []
  | g :: gs => match resolve g, resolves gs with Some t, Some ts => Some (t :: ts) | _, _ => None end
  end.
Definition method_sig (x f : string) : option (list ty * list ty) :=
  match find_method ds x f with
  | Some (DFunc _ _ _ ps rs _) =>
    match resolves (map snd ps), resolves rs with Some ps, Some rs => Some (ps, rs) | _, _ => None end
  | _ => None
  end.

Notation scope := (list (string * ty)).
Definition local (Γ : scope) (x : string) : option ty :=
  match find (fun p => String.eqb p.1 x) Γ with Some p => Some p.2 | None => None end.

Fixpoint typeof (Γ : scope) (e : expr) : option ety :=
  let typeofs := fix go (es : list expr) : option (list ety) :=
    match es with
    | [] => Some []
    | e :: es => match typeof Γ e, go es with Some t, Some ts => Some (t :: ts) | _, _ => None end
    end in
  match e with
  | EId x =>
    match local Γ x with
    | Some t => Some (EV t true)
    | None =>
      if mem x pkg_names then
        match find_set ds x with
        | Some _ =>
          match find (fun d => match d with DSet y _ _ => String.eqb y x | _ => false end) ds with
          | Some (DSet _ g _) => match resolve g with Some t => Some (EV t true) | None => None end
          | _ => None
          end
        | None => None
        end
      else if mem x imports then None
      else if String.eqb x "nil" then Some ENil
      else if String.eqb x "true" || String.eqb x "false" then Some EConstBool
      else None
    end
  | EInt z => Some (EConstInt z)
  | ELit _ => Some EConstStr
  | ESel e x =>
    match typeof Γ e with
    | Some (EV (TPtr t) _) =>
      match fields_of t with
      | Some fs => match field_type fs x with Some t => Some (EV t true) | None => None end
      | None => None
      end
    | Some (EV t a) =>
      match fields_of t with
      | Some fs => match field_type fs x with Some t => Some (EV t a) | None => None end
      | None => None
      end
    | _ => None
    end
  | EAll e =>
    match typeof Γ e with
    | Some (EV (TArr _ t) true) => Some (EV (TSlice t) false)
    | Some (EV (TSlice t) _) => Some (EV (TSlice t) false)
    | _ => None
    end
  | EAddr e => match typeof Γ e with Some (EV t true) => Some (EV (TPtr t) false) | _ => None end
  | EDeref e => match typeof Γ e with Some (EV (TPtr t) _) => Some (EV t true) | _ => None end
  | EBin OpEq e1 e2 =>
    match typeof Γ e1, typeof Γ e2 with
    | Some (EV t _), Some ENil => if nilable t then Some (EV (TU "bool") false) else None
    | _, _ => None
    end
  | EBin OpGt e1 e2 =>
    match typeof Γ e1, typeof Γ e2 with
    | Some (EV t _), Some (EConstInt z) => if fits z t then Some (EV (TU "bool") false) else None
    | _, _ => None
    end
  | ECall (ESel e f) es =>
    let method :=
      match typeof Γ e with
      | Some (EV (TPtr (TN x)) _) | Some (EV (TN x) true) =>
        match typeofs es with Some ts => call (method_sig x f) ts | None => None end
      | Some (EV (TZ x) _) =>
        if String.eqb x "Offsets" then
          match typeofs es with Some ts => call (offsets_method f) ts | None => None end
        else None
      | _ => None
      end in
    match e with
    | EId p =>
      match local Γ p with
      | Some _ => method
      | None =>
        if mem p pkg_names then method
        else if mem p imports && String.eqb p "zeropb" then
          match typeofs es with Some ts => call (zeropb_func f) ts | None => None end
        else None
      end
    | _ => method
    end
  | ECall (EId f) es =>
    match local Γ f, es with
    | None, [a] =>
      if mem f pkg_names then
        match find_type ds f, typeof Γ a with
        | Some _, Some (EV t _) =>
          if assignable t (TN f) || same_underlying t (TN f) then Some (EV (TN f) false) else None
        | _, _ => None
        end
      else if mem f imports then None
      else if String.eqb f "len" then
        match typeof Γ a with
        | Some (EV t _) => match underlying t with Some (TSlice _) => Some (EV (TU "int") false) | _ => None end
        | _ => None
        end
      else if String.eqb f "panic" then
        match typeof Γ a with Some (EV _ _) | Some EConstStr => Some (EMulti []) | _ => None end
      else None
    | _, _ => None
    end
  | ECall _ _ => None
  end.

(** An expression statement is a call, but not of len and not a conversion. *)
Definition call_statement (Γ : scope) (e : expr) : bool :=
  match e with
  | ECall (EId f) _ => String.eqb f "panic" && negb (mem f pkg_names)
  | ECall _ _ => true
  | _ => false
  end &&
  match typeof Γ e with Some _ => true | None => false end.

(** Does the variable [x] occur? *)
Fixpoint mentions (x : string) (e : expr) : bool :=
  match e with
  | EId y => String.eqb y x
  | EInt _ | ELit _ => false
  | ESel e _ | EAll e | EAddr e | EDeref e => mentions x e
  | EBin _ e1 e2 => mentions x e1 || mentions x e2
  | ECall e es => mentions x e || (fix go es := match es with [] => false | e :: es => mentions x e || go es end) es
  end.
(** Is the variable used?  Assigning to it is not a use. *)
Fixpoint uses (x : string) (s : stmt) : bool :=
  match s with
  | SReturn es | SDefine _ es => existsb (mentions x) es
  | SVar _ _ => false
  | SIf e b => mentions x e || (fix go ss := match ss with [] => false | s :: ss => uses x s || go ss end) b
  | SAssign ls es => existsb (mentions x) es || existsb (fun l => match l with EId _ => false | _ => mentions x l end) ls
  | SExpr e => mentions x e
  end.

Fixpoint assign_ok (Γ : scope) (ls : list expr) (ts : list ety) : bool :=
  match ls, ts with
  | [], [] => true
  | l :: ls, v :: ts =>
    match typeof Γ l with Some (EV t true) => usable v t | _ => false end && assign_ok Γ ls ts
  | _, _ => false
  end.
(** The values on the right-hand side of an assignment. *)
Definition values (e : ety) : option (list ety) :=
  match e with
  | EMulti [] => None
  | EMulti ts => Some (map (fun t => EV t false) ts)
  | e => Some [e]
  end.

(** Statements: [Γ] is the scope, [blk] the names declared in the current block,
    [rs] the result types of the function. *)
Fixpoint stmts_ok (n : nat) (Γ : scope) (blk : list string) (rs : list ty) (ss : list stmt) : bool :=
  match n with
  | O => false
  | S n =>
    match ss with
    | [] => true
    | s :: ss =>
      match s with
      | SReturn es =>
        (fix go es ts := match es, ts with
           | [], [] => true
           | e :: es, t :: ts => match typeof Γ e with Some v => usable v t | None => false end && go es ts
           | _, _ => false
           end) es rs && stmts_ok n Γ blk rs ss
      | SVar x g =>
        match resolve g with
        | Some t => negb (mem x blk) && existsb (uses x) ss && stmts_ok n ((x, t) :: Γ) (x :: blk) rs ss
        | None => false
        end
      | SIf e b =>
        match typeof Γ e with
        | Some v => usable v (TU "bool") && stmts_ok n Γ [] rs b && stmts_ok n Γ blk rs ss
        | None => false
        end
      | SAssign ls [e] =>
        match typeof Γ e with
        | Some v => match values v with Some vs => assign_ok Γ ls vs | None => false end && stmts_ok n Γ blk rs ss
        | None => false
        end
      | SDefine [EId x] [e] =>
        match typeof Γ e with
        | Some (EV t _) => negb (mem x blk) && existsb (uses x) ss && stmts_ok n ((x, t) :: Γ) (x :: blk) rs ss
        | _ => false
        end
      | SExpr e => call_statement Γ e && stmts_ok n Γ blk rs ss
      | _ => false
      end
    end
  end.

(** Go spec, "Terminating statements" (the part needed). *)
Definition terminating (ss : list stmt) : bool :=
  match last ss with Some (SReturn _) => true | _ => false end.
Fixpoint size (s : stmt) : nat :=
  match s with
  | SIf _ b => S ((fix go ss := match ss with [] => O | s :: ss => (size s + go ss)%nat end) b)
  | _ => 1%nat
  end.
Definition sizes (ss : list stmt) : nat := fold_right (fun s n => (size s + n)%nat) O ss.

(** ** Declarations *)

(** A struct or array that contains a declared type directly may be recursive:
    outside the subset. *)
Fixpoint flat (t : ty) : bool :=
  match t with
  | TN _ => false
  | TArr _ t => flat t
  | TStruct fs => (fix go fs := match fs with [] => true | (_, t) :: fs => flat t && go fs end) fs
  | _ => true
  end.

Definition decl_ok (d : decl) : bool :=
  match d with
  | DType x g => match resolve g with Some t => negb (named t) && flat t | None => false end
  | DSet x g ks =>
    match resolve g with
    | Some t =>
      match underlying t with
      | Some (TMap k (TStruct [])) => forallb (fun z => fits z k) ks && distinct Z.eqb ks
      | _ => false
      end
    | None => false
    end
  | DFunc r rt f ps rs body =>
    match rt with
    | GPtr (GName x) =>
      match find_type ds x, resolves (map snd ps), resolves rs with
      | Some _, Some pts, Some rts =>
        distinct String.eqb (r :: map fst ps) &&
        stmts_ok (S (sizes body)) ((r, TPtr (TN x)) :: combine (map fst ps) pts) (r :: map fst ps) rts body &&
        (match rs with [] => true | _ => terminating body end) &&
        (* a type with a field and a method of the same name *)
        match underlying (TN x) with
        | Some (TStruct fs) => negb (mem f (map fst fs))
        | Some (TPtr _) | None => false
        | _ => true
        end
      | _, _, _ => false
      end
    | _ => false
    end
  end.

(** The methods, by receiver type and name. *)
Definition method_keys : list (string * string) :=
  List.concat (map (fun d => match d with DFunc _ (GPtr (GName x)) f _ _ _ => [(x, f)] | _ => [] end) ds).
Definition key_eqb (a b : string * string) : bool := String.eqb a.1 b.1 && String.eqb a.2 b.2.
End package.

(** Is the package [p] referred to? *)
Fixpoint type_uses (p : string) (g : gotype) : bool :=
  match g with
  | GName _ => false
  | GQual q _ => String.eqb q p
  | GPtr g | GSlice g | GArr _ g => type_uses p g
  | GMapOf k v => type_uses p k || type_uses p v
  | GStruct fs => (fix go fs := match fs with [] => false | (_, g) :: fs => type_uses p g || go fs end) fs
  end.
Definition decl_uses (p : string) (d : decl) : bool :=
  match d with
  | DType _ g | DSet _ g _ => type_uses p g
  | DFunc _ _ _ ps rs body =>
    existsb (fun q => type_uses p q.2) ps || existsb (type_uses p) rs || existsb (uses p) body
  end.

(** A file of a package with the declarations [ds]. *)
Definition file_ok (ds : list decl) (f : gofile) : bool :=
  let names := omap import_name (gf_imports f) in
  Nat.eqb (List.length names) (List.length (gf_imports f)) &&
  distinct String.eqb names &&
  forallb (fun p => negb (mem p (pkg_names ds)) && existsb (decl_uses p) (gf_decls f)) names &&
  negb (String.eqb (gf_package f) "_") && negb (String.eqb (gf_package f) "main") &&
  forallb (decl_ok ds names) (gf_decls f).

(** A package made of these files.  (A package main needs a function main, which is
    outside the subset.) *)
Definition package_ok (fs : list gofile) : bool :=
  let ds := List.concat (map gf_decls fs) in
  distinct String.eqb (pkg_names ds) &&
  negb (mem "_" (pkg_names ds)) && negb (mem "init" (pkg_names ds)) &&
  distinct key_eqb (method_keys ds) &&
  match fs with
  | [] => false
  | f :: _ => forallb (fun g => String.eqb (gf_package g) (gf_package f)) fs
  end &&
  forallb (file_ok ds) fs.

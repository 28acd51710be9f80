(** * What the generated Go code does

    An interpreter for the subset of Go of GoLang.v, over the model of the
    runtime library (Runtime.v, GenApi.v) as package zeropb.  Programs that do
    not type-check have no meaning in Go; where they are stuck the interpreter
    answers [Panic]. *)
From Verif Require Export GoLang GenApi.
From Verif Require Import Spec.

(** ** Values and objects *)

(** [GObj l]: the object at [l], as a pointer or as an addressable variable.
    [GBufRef], [GMapRef]: pointers to the fields buf and offsets.m of the struct at
    [l]; [GArrRef]: the slice offsets.a[:] of it; [GPath]: its field offsets;
    [GOffs]: the value of type zeropb.Offsets over it. *)
Inductive value :=
| GP (v : pval) | GErr (e : option error) | GNil
| GObj (l : nat) | GBufRef (l : nat) | GMapRef (l : nat) | GArrRef (l : nat) | GPath (l : nat) | GOffs (l : nat)
| GSet (ks : list Z) | GText (s : string).

(** A struct of the declared message type [ty], or a variable of the declared
    slice type [ty]. *)
Inductive obj := OMsg (ty : string) (m : msg) | OBytes (ty : string) (b : option (list Z)).
Notation heap := (gmap nat obj).
Notation env := (list (string * value)).

Definition lookup_var (ρ : env) (x : string) : option value :=
  match find (fun p => String.eqb p.1 x) ρ with Some p => Some p.2 | None => None end.

(** ** Declarations *)
Definition obj_type (o : obj) : string := match o with OMsg t _ | OBytes t _ => t end.

(** The zero value of a declared type: [var x T]. *)
Definition zero_obj (ds : list decl) (ty : string) : option obj :=
  match find_type ds ty with
  | Some (GStruct [("buf", GSlice (GName "byte"));
                   ("offsets", GStruct [("a", GArr n (GName "uint16")); ("m", GMapOf (GName "int") (GName "uint64"))])]) =>
    Some (OMsg ty (mkMsg [] (offsets_zero (Z.to_nat n))))
  | Some (GSlice (GName "byte")) => Some (OBytes ty None)
  | _ => None
  end.

(** ** The package zeropb (zeropb.go) *)

(** The codec of the functions Get... and Set... *)
Definition codec (fn : string) : option ptype :=
  match fn with
  | "Bool" => Some PBool | "Int32" => Some PInt32 | "Int64" => Some PInt64
  | "Uint32" => Some PUint32 | "Uint64" => Some PUint64
  | "ZigZagInt32" => Some PSint32 | "ZigZagInt64" => Some PSint64
  | "FixedUint32" => Some PFixed32 | "FixedUint64" => Some PFixed64
  | "FixedInt32" => Some PSfixed32 | "FixedInt64" => Some PSfixed64
  | "Float32" => Some PFloat | "Float64" => Some PDouble
  | "String" => Some PString | "Bytes" => Some PBytes
  | _ => None
  end%string.

Definition strip (p s : string) : option string :=
  if String.prefix p s then Some (String.substring (String.length p) (String.length s - String.length p) s) else None.

(** [zeropb.fn(args)]: results and new memory. *)
Definition lib_call (fn : string) (args : list value) (σ : heap) : res (list value * heap) :=
  match args with
  | [GArrRef l; GMapRef l'] =>
    if String.eqb fn "WrapOffsets" && Nat.eqb l l' then Ok ([GOffs l], σ) else Panic
  | [GP (VBytes b); GOffs l; GP (VNum f)] =>
    match σ !! l with
    | Some (OMsg ty m) =>
      if String.eqb fn "GetRepeatedNonPacked" then
        let* it := GetRepeatedNonPacked (default [] b) (moff m) f in Ok ([GP (VBytes it)], σ)
      else
        match strip "Get" fn with
        | Some c =>
          match codec c with
          | Some T => let* v := m_get T (mkMsg (default [] b) (moff m)) f in Ok ([GP v], σ)
          | None => Panic
          end
        | None => Panic
        end
    | _ => Panic
    end
  | [GBufRef l; GOffs l'; GP (VNum f); GP v] =>
    match σ !! l with
    | Some (OMsg ty m) =>
      if negb (Nat.eqb l l') then Panic
      else if String.eqb fn "AppendBytes" then
        match v with
        | VBytes x => let* m := m_append m f (default [] x) in Ok ([], <[l := OMsg ty m]> σ)
        | _ => Panic
        end
      else
        match strip "Set" fn with
        | Some c =>
          match codec c with
          | Some T => let* m := m_set T m f v in Ok ([], <[l := OMsg ty m]> σ)
          | None => Panic
          end
        | None => Panic
        end
    | _ => Panic
    end
  | [GP (VBytes b); GOffs l; GSet ks] =>
    match σ !! l with
    | Some (OMsg ty m) =>
      if String.eqb fn "Decode" then
        let buf := default [] b in
        let* (err, o) := Decode (fuel_of buf) buf (moff m) ks in
        Ok ([GErr err], <[l := OMsg ty (mkMsg (mbuf m) o)]> σ)
      else Panic
    | _ => Panic
    end
  | [GP (VBytes it); GP (VNum f)] =>
    if String.eqb fn "FindNextField" then
      let* (it, buf) := FindNextField (find_fuel it) it f in Ok ([GP (VBytes it); GP (VBytes buf)], σ)
    else Panic
  | _ => Panic
  end.

(** ** Expressions and statements *)

(** Conversion of an untyped nil to a result type. *)
Definition to_type (t : gotype) (v : value) : value :=
  match t, v with
  | GName "error", GNil => GErr None
  | GSlice _, GNil => GP (VBytes None)
  | _, _ => v
  end.
Fixpoint to_types (ts : list gotype) (vs : list value) : list value :=
  match ts, vs with
  | t :: ts, v :: vs => to_type t v :: to_types ts vs
  | _, vs => vs
  end.

(** Parameters: a struct passed by value is copied. *)
Fixpoint bind_params (σ : heap) (ps : list (string * gotype)) (args : list value) : res (env * heap) :=
  match ps, args with
  | [], [] => Ok ([], σ)
  | (x, t) :: ps, v :: args =>
    match t, v with
    | GName _, GObj l =>
      match σ !! l with
      | Some o =>
        let l' := fresh (dom σ) in
        let* (ρ, σ) := bind_params (<[l' := o]> σ) ps args in Ok ((x, GObj l') :: ρ, σ)
      | None => Panic
      end
    | _, _ => let* (ρ, σ) := bind_params σ ps args in Ok ((x, to_type t v) :: ρ, σ)
    end
  | _, _ => Panic
  end.

(** How a statement list ends: falls through, or returns. *)
Inductive flow := Through (ρ : env) | Return (vs : list value).

Section interp.
Context (ds : list decl).

Definition one (r : res (list value * heap)) : res (value * heap) :=
  let* (vs, σ) := r in match vs with [v] => Ok (v, σ) | _ => Panic end.

(** Assignment to a declared variable. *)
Fixpoint update_var (ρ : env) (x : string) (v : value) : res env :=
  match ρ with
  | [] => Panic
  | (y, w) :: ρ =>
    if String.eqb y x then Ok ((y, v) :: ρ) else let* ρ := update_var ρ x v in Ok ((y, w) :: ρ)
  end.

(** [x = v] for the left-hand sides of the subset. *)
Definition assign (σ : heap) (ρ : env) (lhs : expr) (v : value) : res (heap * env) :=
  match lhs with
  | EId x => let* ρ := update_var ρ x v in Ok (σ, ρ)
  | ESel (EId x) "buf" =>
    match lookup_var ρ x, v with
    | Some (GObj l), GP (VBytes b) =>
      match σ !! l with
      | Some (OMsg ty m) => Ok (<[l := OMsg ty (mkMsg (default [] b) (moff m))]> σ, ρ)
      | _ => Panic
      end
    | _, _ => Panic
    end
  | EDeref (EId x) =>
    match lookup_var ρ x, v with
    | Some (GObj l), GP (VBytes b) =>
      match σ !! l with
      | Some (OBytes ty _) => Ok (<[l := OBytes ty b]> σ, ρ)
      | _ => Panic
      end
    | _, _ => Panic
    end
  | _ => Panic
  end.
Fixpoint assigns (σ : heap) (ρ : env) (ls : list expr) (vs : list value) : res (heap * env) :=
  match ls, vs with
  | [], [] => Ok (σ, ρ)
  | e :: ls, v :: vs => let* (σ, ρ) := assign σ ρ e v in assigns σ ρ ls vs
  | _, _ => Panic
  end.

(** [x := v]: new variables. *)
Fixpoint defines (ρ : env) (ls : list expr) (vs : list value) : res env :=
  match ls, vs with
  | [], [] => Ok ρ
  | EId x :: ls, v :: vs => defines ((x, v) :: ρ) ls vs
  | _, _ => Panic
  end.

(** The package zeropb as the operand of a selector. *)
Definition is_package (e : expr) : bool := match e with EId x => String.eqb x "zeropb" | _ => false end.

(** Order of evaluation: operands and arguments from left to right. *)
Fixpoint eval (n : nat) (σ : heap) (ρ : env) (e : expr) {struct n} : res (list value * heap) :=
  match n with
  | O => OutOfFuel
  | S n =>
    match e with
    | EInt z => Ok ([GP (VNum z)], σ)
    | ELit s => Ok ([GText s], σ)
    | EId x =>
      match lookup_var ρ x with
      | Some v => Ok ([v], σ)
      | None =>
        match find_set ds x with
        | Some ks => Ok ([GSet ks], σ)
        | None =>
          match find_type ds x with
          | Some _ => Panic
          | None =>
            if String.eqb x "nil" then Ok ([GNil], σ)
            else if String.eqb x "true" then Ok ([GP (VBool true)], σ)
            else if String.eqb x "false" then Ok ([GP (VBool false)], σ)
            else Panic
          end
        end
      end
    | ESel e f =>
      let* (v, σ) := one (eval n σ ρ e) in
      match v with
      | GObj l =>
        match σ !! l with
        | Some (OMsg _ m) =>
          if String.eqb f "buf" then Ok ([GP (VBytes (Some (mbuf m)))], σ)
          else if String.eqb f "offsets" then Ok ([GPath l], σ) else Panic
        | _ => Panic
        end
      | _ => Panic
      end
    | EAll (ESel e f) =>
      let* (v, σ) := one (eval n σ ρ e) in
      match v with GPath l => if String.eqb f "a" then Ok ([GArrRef l], σ) else Panic | _ => Panic end
    | EAddr (ESel e f) =>
      let* (v, σ) := one (eval n σ ρ e) in
      match v with
      | GPath l => if String.eqb f "m" then Ok ([GMapRef l], σ) else Panic
      | GObj l => if String.eqb f "buf" then Ok ([GBufRef l], σ) else Panic
      | _ => Panic
      end
    | EDeref e =>
      let* (v, σ) := one (eval n σ ρ e) in
      match v with
      | GObj l => match σ !! l with Some (OBytes _ b) => Ok ([GP (VBytes b)], σ) | _ => Panic end
      | _ => Panic
      end
    | EBin op e1 e2 =>
      let* (v1, σ) := one (eval n σ ρ e1) in
      let* (v2, σ) := one (eval n σ ρ e2) in
      match op, v1, v2 with
      | OpEq, GP (VBytes b), GNil => Ok ([GP (VBool (match b with None => true | Some _ => false end))], σ)
      | OpGt, GP (VNum x), GP (VNum y) => Ok ([GP (VBool (y <? x))], σ)
      | _, _, _ => Panic
      end
    | ECall (ESel e f) es =>
      if is_package e then
        match lookup_var ρ "zeropb" with
        | Some _ => Panic
        | None => let* (vs, σ) := evals n σ ρ es in lib_call f vs σ
        end
      else
        let* (v, σ) := one (eval n σ ρ e) in
        let* (vs, σ) := evals n σ ρ es in
        match v with
        | GOffs l =>
          match σ !! l, vs with
          | Some (OMsg ty m), [] =>
            if String.eqb f "Clear" then Ok ([], <[l := OMsg ty (mkMsg (mbuf m) (offsets_clear (moff m)))]> σ) else Panic
          | _, _ => Panic
          end
        | GObj l => invoke n σ l f vs
        | _ => Panic
        end
    | ECall (EId f) [e] =>
      match lookup_var ρ f, find_type ds f with
      | Some _, _ => Panic
      | None, Some _ => eval n σ ρ e          (* conversion between slice types *)
      | None, None =>
        if String.eqb f "len" then
          let* (v, σ) := one (eval n σ ρ e) in
          match v with GP (VBytes b) => Ok ([GP (VNum (zlen (default [] b)))], σ) | _ => Panic end
        else Panic                         (* panic(e) *)
      end
    | _ => Panic
    end
  end
with evals (n : nat) (σ : heap) (ρ : env) (es : list expr) {struct n} : res (list value * heap) :=
  match n with
  | O => OutOfFuel
  | S n =>
    match es with
    | [] => Ok ([], σ)
    | e :: es =>
      let* (v, σ) := one (eval n σ ρ e) in
      let* (vs, σ) := evals n σ ρ es in Ok (v :: vs, σ)
    end
  end
(** A method call on the object at [l]: the results. *)
with invoke (n : nat) (σ : heap) (l : nat) (f : string) (args : list value) {struct n} : res (list value * heap) :=
  match n with
  | O => OutOfFuel
  | S n =>
    match σ !! l with
    | Some o =>
      match find_method ds (obj_type o) f with
      | Some (DFunc r _ _ ps rs body) =>
        let* (ρ, σ) := bind_params σ ps args in
        let* (fl, σ) := exec_block n σ ((r, GObj l) :: ρ) body in
        match fl with
        | Return vs => if Nat.eqb (List.length vs) (List.length rs) then Ok (to_types rs vs, σ) else Panic
        | Through _ => match rs with [] => Ok ([], σ) | _ => Panic end
        end
      | _ => Panic
      end
    | None => Panic
    end
  end
with exec_block (n : nat) (σ : heap) (ρ : env) (ss : list stmt) {struct n} : res (flow * heap) :=
  match n with
  | O => OutOfFuel
  | S n =>
    match ss with
    | [] => Ok (Through ρ, σ)
    | s :: ss =>
      match s with
      | SReturn es => let* (vs, σ) := evals n σ ρ es in Ok (Return vs, σ)
      | SVar x (GSlice _) => exec_block n σ ((x, GP (VBytes None)) :: ρ) ss
      | SIf e b =>
        let* (v, σ) := one (eval n σ ρ e) in
        match v with
        | GP (VBool true) =>
          let* (fl, σ) := exec_block n σ ρ b in
          match fl with
          | Return vs => Ok (Return vs, σ)
          | Through ρ' => (* the variables of the block are out of scope *)
            exec_block n σ (drop (List.length ρ' - List.length ρ) ρ') ss
          end
        | GP (VBool false) => exec_block n σ ρ ss
        | _ => Panic
        end
      | SAssign ls [e] =>
        let* (vs, σ) := eval n σ ρ e in
        let* (σ, ρ) := assigns σ ρ ls vs in exec_block n σ ρ ss
      | SDefine ls [e] =>
        let* (vs, σ) := eval n σ ρ e in
        let* ρ := defines ρ ls vs in exec_block n σ ρ ss
      | SExpr e => let* (_, σ) := eval n σ ρ e in exec_block n σ ρ ss
      | _ => Panic
      end
    end
  end.
End interp.

(** * What the methods of a generated message do when called *)
From Verif Require Import Gen GoLang Spec GoCheck GoCheckFacts GenSpec GenLex GenText GenNames GenAst GenFile GenCheck GenPkg GenNec GoSem.
From Coq Require Import ZifyBool.

(** The functions of zeropb by codec. *)
Definition codecs : list (string * ptype) :=
  [("Bool", PBool); ("Int32", PInt32); ("Int64", PInt64); ("Uint32", PUint32); ("Uint64", PUint64);
   ("ZigZagInt32", PSint32); ("ZigZagInt64", PSint64); ("FixedUint32", PFixed32); ("FixedUint64", PFixed64);
   ("FixedInt32", PSfixed32); ("FixedInt64", PSfixed64); ("Float32", PFloat); ("Float64", PDouble);
   ("String", PString); ("Bytes", PBytes)].

Lemma bytes_codec : ("Bytes", PBytes) ∈ codecs.
Proof. unfold codecs. repeat (first [apply elem_of_list_here|apply elem_of_list_further]). Qed.

(** ** Rules of evaluation *)
Section rules.
Context (ds : list decl).
Notation eval := (eval ds). Notation evals := (evals ds). Notation invoke := (invoke ds). Notation exec_block := (exec_block ds).

Lemma e_id n σ ρ x : eval (S n) σ ρ (EId x) =
  match lookup_var ρ x with
  | Some v => Ok ([v], σ)
  | None =>
    match find_set ds x with
    | Some ks => Ok ([GSet ks], σ)
    | None =>
      match find_type ds x with
      | Some _ => Panic
      | None => if String.eqb x "nil" then Ok ([GNil], σ) else if String.eqb x "true" then Ok ([GP (VBool true)], σ)
                else if String.eqb x "false" then Ok ([GP (VBool false)], σ) else Panic
      end
    end
  end.
Proof. reflexivity. Qed.
Lemma e_sel n σ ρ e f : eval (S n) σ ρ (ESel e f) =
  let* (v, σ) := one (eval n σ ρ e) in
  match v with
  | GObj l =>
    match σ !! l with
    | Some (OMsg _ m) =>
      if String.eqb f "buf" then Ok ([GP (VBytes (Some (mbuf m)))], σ)
      else if String.eqb f "offsets" then Ok ([GPath l], σ) else Panic
    | _ => Panic
    end
  | _ => Panic
  end.
Proof. reflexivity. Qed.
Lemma e_addr n σ ρ e f : eval (S n) σ ρ (EAddr (ESel e f)) =
  let* (v, σ) := one (eval n σ ρ e) in
  match v with
  | GPath l => if String.eqb f "m" then Ok ([GMapRef l], σ) else Panic
  | GObj l => if String.eqb f "buf" then Ok ([GBufRef l], σ) else Panic
  | _ => Panic
  end.
Proof. reflexivity. Qed.
Lemma e_all n σ ρ e f : eval (S n) σ ρ (EAll (ESel e f)) =
  let* (v, σ) := one (eval n σ ρ e) in
  match v with GPath l => if String.eqb f "a" then Ok ([GArrRef l], σ) else Panic | _ => Panic end.
Proof. reflexivity. Qed.
Lemma e_call n σ ρ e f es : eval (S n) σ ρ (ECall (ESel e f) es) =
  if is_package e then
    match lookup_var ρ "zeropb" with
    | Some _ => Panic
    | None => let* (vs, σ) := evals n σ ρ es in lib_call f vs σ
    end
  else
    let* (v, σ) := one (eval n σ ρ e) in
    let* (vs, σ) := evals n σ ρ es in
    match v with
    | GOffs l =>
      match σ !! l, vs with
      | Some (OMsg ty m), [] =>
        if String.eqb f "Clear" then Ok ([], <[l := OMsg ty (mkMsg (mbuf m) (offsets_clear (moff m)))]> σ) else Panic
      | _, _ => Panic
      end
    | GObj l => invoke n σ l f vs
    | _ => Panic
    end.
Proof. reflexivity. Qed.
Lemma e_call1 n σ ρ f e : eval (S n) σ ρ (ECall (EId f) [e]) =
  match lookup_var ρ f, find_type ds f with
  | Some _, _ => Panic
  | None, Some _ => eval n σ ρ e
  | None, None =>
    if String.eqb f "len" then
      let* (v, σ) := one (eval n σ ρ e) in
      match v with GP (VBytes b) => Ok ([GP (VNum (zlen (default [] b)))], σ) | _ => Panic end
    else Panic
  end.
Proof. reflexivity. Qed.
Lemma e_var n σ ρ x v : lookup_var ρ x = Some v -> eval (S n) σ ρ (EId x) = Ok ([v], σ).
Proof. intros H. rewrite e_id, H. done. Qed.
Lemma e_set n σ ρ x ks : lookup_var ρ x = None -> find_set ds x = Some ks -> eval (S n) σ ρ (EId x) = Ok ([GSet ks], σ).
Proof. intros H1 H2. rewrite e_id, H1, H2. done. Qed.
Lemma e_nil n σ ρ : lookup_var ρ "nil" = None -> find_set ds "nil" = None -> find_type ds "nil" = None -> eval (S n) σ ρ (EId "nil") = Ok ([GNil], σ).
Proof. intros H1 H2 H3. rewrite e_id, H1, H2, H3. done. Qed.
Lemma e_true n σ ρ : lookup_var ρ "true" = None -> find_set ds "true" = None -> find_type ds "true" = None -> eval (S n) σ ρ (EId "true") = Ok ([GP (VBool true)], σ).
Proof. intros H1 H2 H3. rewrite e_id, H1, H2, H3. done. Qed.
Lemma e_false n σ ρ : lookup_var ρ "false" = None -> find_set ds "false" = None -> find_type ds "false" = None -> eval (S n) σ ρ (EId "false") = Ok ([GP (VBool false)], σ).
Proof. intros H1 H2 H3. rewrite e_id, H1, H2, H3. done. Qed.
Lemma e_int n σ ρ z : eval (S n) σ ρ (EInt z) = Ok ([GP (VNum z)], σ).
Proof. done. Qed.
Lemma e_buf n σ ρ x l ty m : lookup_var ρ x = Some (GObj l) -> σ !! l = Some (OMsg ty m) ->
  eval (S (S n)) σ ρ (ESel (EId x) "buf") = Ok ([GP (VBytes (Some (mbuf m)))], σ).
Proof. intros H1 H2. rewrite e_sel, (e_var n σ ρ x _ H1). cbn [one rbind]. rewrite H2. done. Qed.
Lemma e_addr_buf n σ ρ x l : lookup_var ρ x = Some (GObj l) ->
  eval (S (S n)) σ ρ (EAddr (ESel (EId x) "buf")) = Ok ([GBufRef l], σ).
Proof. intros H1. rewrite e_addr, (e_var n σ ρ x _ H1). done. Qed.
Lemma e_offsets n σ ρ x l ty m : lookup_var ρ x = Some (GObj l) -> σ !! l = Some (OMsg ty m) ->
  eval (S (S n)) σ ρ (ESel (EId x) "offsets") = Ok ([GPath l], σ).
Proof. intros H1 H2. rewrite e_sel, (e_var n σ ρ x _ H1). cbn [one rbind]. rewrite H2. done. Qed.
Lemma e_lib n σ ρ fn es : lookup_var ρ "zeropb" = None ->
  eval (S n) σ ρ (ECall (ESel (EId "zeropb") fn) es) = let* (vs, σ) := evals n σ ρ es in lib_call fn vs σ.
Proof. intros H. rewrite e_call. change (is_package (EId "zeropb")) with true. cbn match. rewrite H. done. Qed.
Lemma es_nil n σ ρ : evals (S n) σ ρ [] = Ok ([], σ).
Proof. done. Qed.
Lemma es_cons n σ ρ e es v : eval n σ ρ e = Ok ([v], σ) ->
  evals (S n) σ ρ (e :: es) = let* (vs, σ) := evals n σ ρ es in Ok (v :: vs, σ).
Proof.
  intros H. change (evals (S n) σ ρ (e :: es)) with
    (let* (v, σ) := one (eval n σ ρ e) in let* (vs, σ) := evals n σ ρ es in Ok (v :: vs, σ)).
  rewrite H. done.
Qed.
Lemma es_last n σ ρ e : evals (S (S n)) σ ρ [e] = let* (v, σ) := one (eval (S n) σ ρ e) in Ok ([v], σ).
Proof. reflexivity. Qed.
Lemma e_offs n σ ρ l ty m : lookup_var ρ "zeropb" = None -> lookup_var ρ "m" = Some (GObj l) -> σ !! l = Some (OMsg ty m) ->
  eval (6 + n) σ ρ offs = Ok ([GOffs l], σ).
Proof.
  intros H0 H1 H2. unfold offs. cbn [Nat.add]. rewrite e_lib by done.
  rewrite (es_cons _ _ _ _ _ (GArrRef l)).
  2: { rewrite e_all, (e_offsets _ _ _ _ _ _ _ H1 H2). done. }
  rewrite (es_cons _ _ _ _ _ (GMapRef l)).
  2: { rewrite e_addr, (e_offsets _ _ _ _ _ _ _ H1 H2). done. }
  rewrite es_nil. cbn [rbind lib_call]. rewrite Nat.eqb_refl. done.
Qed.
Lemma e_method n σ ρ x l f es : lookup_var ρ x = Some (GObj l) -> x <> "zeropb" ->
  eval (S (S n)) σ ρ (ECall (ESel (EId x) f) es) = let* (vs, σ) := evals (S n) σ ρ es in invoke (S n) σ l f vs.
Proof.
  intros H1 H2. rewrite e_call. cbn [is_package]. rewrite (proj2 (String.eqb_neq x _) H2), (e_var n σ ρ x _ H1). done.
Qed.
Lemma e_clear n σ ρ l ty m : lookup_var ρ "zeropb" = None -> lookup_var ρ "m" = Some (GObj l) -> σ !! l = Some (OMsg ty m) ->
  eval (S (S (S (S (S (S (S n))))))) σ ρ (ECall (ESel offs "Clear") []) = Ok ([], <[l := OMsg ty (mkMsg (mbuf m) (offsets_clear (moff m)))]> σ).
Proof.
  intros H0 H1 H2. change (S (S (S (S (S (S (S n))))))) with (S (6 + n)). rewrite e_call. change (is_package offs) with false. cbn match.
  rewrite (e_offs _ _ _ _ _ _ H0 H1 H2). cbn [one rbind]. change (6 + n)%nat with (S (5 + n)). rewrite es_nil. cbn [rbind].
  rewrite H2. done.
Qed.
Lemma e_deref n σ ρ x l ty b : lookup_var ρ x = Some (GObj l) -> σ !! l = Some (OBytes ty b) ->
  eval (S (S n)) σ ρ (EDeref (EId x)) = Ok ([GP (VBytes b)], σ).
Proof.
  intros H1 H2. change (eval (S (S n)) σ ρ (EDeref (EId x))) with
    (let* (v, σ) := one (eval (S n) σ ρ (EId x)) in
      match v with
      | GObj l => match σ !! l with Some (OBytes _ b) => Ok ([GP (VBytes b)], σ) | _ => Panic end
      | _ => Panic
      end).
  rewrite (e_var n σ ρ x _ H1). cbn [one rbind]. rewrite H2. done.
Qed.
Lemma e_len n σ ρ x b z : lookup_var ρ "len" = None -> find_type ds "len" = None -> lookup_var ρ x = Some (GP (VBytes b)) ->
  eval (3 + n) σ ρ (EBin OpGt (ECall (EId "len") [EId x]) (EInt z)) = Ok ([GP (VBool (z <? zlen (default [] b)))], σ).
Proof.
  intros H1 H2 H3. cbn [Nat.add].
  transitivity (let* (v1, σ) := one (eval (S (S n)) σ ρ (ECall (EId "len") [EId x])) in
      let* (v2, σ) := one (eval (S (S n)) σ ρ (EInt z)) in
      match OpGt, v1, v2 with
      | OpEq, GP (VBytes b), GNil => Ok ([GP (VBool (match b with None => true | Some _ => false end))], σ)
      | OpGt, GP (VNum x), GP (VNum y) => Ok ([GP (VBool (y <? x))], σ)
      | _, _, _ => Panic
      end); [done|].
  assert (E : eval (S (S n)) σ ρ (ECall (EId "len") [EId x]) = Ok ([GP (VNum (zlen (default [] b)))], σ)).
  { rewrite e_call1, H1, H2, (e_var _ _ _ _ _ H3). done. }
  rewrite E. cbn [one rbind]. rewrite e_int. done.
Qed.
Lemma e_panic n σ ρ e : lookup_var ρ "panic" = None -> find_type ds "panic" = None ->
  eval (S n) σ ρ (ECall (EId "panic") [e]) = Panic.
Proof. intros H1 H2. rewrite e_call1, H1, H2. done. Qed.
Lemma e_convert n σ ρ f e g : lookup_var ρ f = None -> find_type ds f = Some g ->
  eval (S n) σ ρ (ECall (EId f) [e]) = eval n σ ρ e.
Proof. intros H1 H2. rewrite e_call1, H1, H2. done. Qed.
Lemma e_isnil n σ ρ x b : lookup_var ρ x = Some (GP (VBytes b)) ->
  lookup_var ρ "nil" = None -> find_set ds "nil" = None -> find_type ds "nil" = None ->
  eval (2 + n) σ ρ (EBin OpEq (EId x) (EId "nil")) = Ok ([GP (VBool (match b with None => true | Some _ => false end))], σ).
Proof.
  intros H1 H2 H3 H4. cbn [Nat.add].
  transitivity (let* (v1, σ) := one (eval (S n) σ ρ (EId x)) in
      let* (v2, σ) := one (eval (S n) σ ρ (EId "nil")) in
      match OpEq, v1, v2 with
      | OpEq, GP (VBytes b), GNil => Ok ([GP (VBool (match b with None => true | Some _ => false end))], σ)
      | OpGt, GP (VNum x), GP (VNum y) => Ok ([GP (VBool (y <? x))], σ)
      | _, _, _ => Panic
      end); [done|].
  rewrite (e_var _ _ _ _ _ H1). cbn [one rbind]. rewrite e_nil by done. done.
Qed.

(** Statements. *)
Lemma x_return n σ ρ es ss : exec_block (S n) σ ρ (SReturn es :: ss) = let* (vs, σ) := evals n σ ρ es in Ok (Return vs, σ).
Proof. done. Qed.
Lemma x_end n σ ρ : exec_block (S n) σ ρ [] = Ok (Through ρ, σ).
Proof. done. Qed.
Lemma x_expr n σ ρ e ss : exec_block (S n) σ ρ (SExpr e :: ss) = let* (_, σ) := eval n σ ρ e in exec_block n σ ρ ss.
Proof. done. Qed.
Lemma x_assign n σ ρ ls e ss : exec_block (S n) σ ρ (SAssign ls [e] :: ss) =
  let* (vs, σ) := eval n σ ρ e in let* (σ, ρ) := assigns σ ρ ls vs in exec_block n σ ρ ss.
Proof. done. Qed.
Lemma x_define n σ ρ x e ss : exec_block (S n) σ ρ (SDefine [EId x] [e] :: ss) =
  let* (vs, σ) := eval n σ ρ e in let* ρ := defines ρ [EId x] vs in exec_block n σ ρ ss.
Proof. done. Qed.
Lemma x_var n σ ρ x g ss : exec_block (S n) σ ρ (SVar x (GSlice g) :: ss) = exec_block n σ ((x, GP (VBytes None)) :: ρ) ss.
Proof. done. Qed.
Lemma x_if n σ ρ e b ss v : eval n σ ρ e = Ok ([GP (VBool v)], σ) ->
  exec_block (S n) σ ρ (SIf e b :: ss) =
  if v then
    let* (fl, σ) := exec_block n σ ρ b in
    match fl with
    | Return vs => Ok (Return vs, σ)
    | Through ρ' => exec_block n σ (drop (List.length ρ' - List.length ρ) ρ') ss
    end
  else exec_block n σ ρ ss.
Proof.
  intros H. change (exec_block (S n) σ ρ (SIf e b :: ss)) with
    (let* (v, σ) := one (eval n σ ρ e) in
        match v with
        | GP (VBool true) =>
          let* (fl, σ) := exec_block n σ ρ b in
          match fl with
          | Return vs => Ok (Return vs, σ)
          | Through ρ' => exec_block n σ (drop (List.length ρ' - List.length ρ) ρ') ss
          end
        | GP (VBool false) => exec_block n σ ρ ss
        | _ => Panic
        end).
  rewrite H. cbn [one rbind]. destruct v; done.
Qed.
Lemma i_method n σ l f args o r g x ps rs body : σ !! l = Some o -> find_method ds (obj_type o) f = Some (DFunc r g x ps rs body) ->
  invoke (S n) σ l f args =
  let* (ρ, σ) := bind_params σ ps args in
  let* (fl, σ) := exec_block n σ ((r, GObj l) :: ρ) body in
  match fl with
  | Return vs => if Nat.eqb (List.length vs) (List.length rs) then Ok (to_types rs vs, σ) else Panic
  | Through _ => match rs with [] => Ok ([], σ) | _ => Panic end
  end.
Proof.
  intros H1 H2. change (invoke (S n) σ l f args) with
    (match σ !! l with
    | Some o =>
      match find_method ds (obj_type o) f with
      | Some (DFunc r _ _ ps rs body) =>
        let* (ρ, σ) := bind_params σ ps args in
        let* (fl, σ) := exec_block n σ ((r, GObj l) :: ρ) body in
        match fl with
        | Return vs => if Nat.eqb (List.length vs) (List.length rs) then Ok (to_types rs vs, σ) else Panic
        | Through _ => match rs with [] => Ok ([], σ) | _ => Panic end
        end
      | _ => Panic
      end
    | None => Panic
    end).
  rewrite H1, H2. done.
Qed.
End rules.

(** ** The library *)
Lemma l_get fn T σ l ty m k : (fn, T) ∈ codecs -> σ !! l = Some (OMsg ty m) ->
  lib_call ("Get" +:+ fn) [GP (VBytes (Some (mbuf m))); GOffs l; GP (VNum k)] σ = let* v := m_get T m k in Ok ([GP v], σ).
Proof.
  intros H1 H2. unfold codecs in H1.
  repeat (apply elem_of_cons in H1 as [H1|H1]; [injection H1 as -> ->; cbn [lib_call]; rewrite H2;
    match goal with |- (if ?b then _ else _) = _ => change b with false end; cbn match;
    match goal with |- match ?b with Some _ => _ | None => _ end = _ => let v := eval vm_compute in b in change b with v end; cbn match;
    match goal with |- match ?b with Some _ => _ | None => _ end = _ => let v := eval vm_compute in b in change b with v end; cbn match;
    destruct m; reflexivity|]).
  apply elem_of_nil in H1. done.
Qed.
Lemma l_set fn T σ l ty m k v : (fn, T) ∈ codecs -> σ !! l = Some (OMsg ty m) ->
  lib_call ("Set" +:+ fn) [GBufRef l; GOffs l; GP (VNum k); GP v] σ = let* m' := m_set T m k v in Ok ([], <[l := OMsg ty m']> σ).
Proof.
  intros H1 H2. unfold codecs in H1.
  repeat (apply elem_of_cons in H1 as [H1|H1]; [injection H1 as -> ->; cbn [lib_call]; rewrite H2, Nat.eqb_refl; cbn [negb]; cbn match;
    match goal with |- (if ?b then _ else _) = _ => change b with false end; cbn match;
    match goal with |- match ?b with Some _ => _ | None => _ end = _ => let v := eval vm_compute in b in change b with v end; cbn match;
    match goal with |- match ?b with Some _ => _ | None => _ end = _ => let v := eval vm_compute in b in change b with v end; cbn match;
    reflexivity|]).
  apply elem_of_nil in H1. done.
Qed.
Lemma l_append σ l ty m k b : σ !! l = Some (OMsg ty m) ->
  lib_call "AppendBytes" [GBufRef l; GOffs l; GP (VNum k); GP (VBytes b)] σ =
  let* m' := m_append m k (default [] b) in Ok ([], <[l := OMsg ty m']> σ).
Proof. intros H. cbn [lib_call]. rewrite H, Nat.eqb_refl. reflexivity. Qed.
Lemma l_iter σ l ty m k : σ !! l = Some (OMsg ty m) ->
  lib_call "GetRepeatedNonPacked" [GP (VBytes (Some (mbuf m))); GOffs l; GP (VNum k)] σ =
  let* it := m_Iter m k in Ok ([GP (VBytes it)], σ).
Proof. intros H. cbn [lib_call]. rewrite H. reflexivity. Qed.
Lemma l_next σ it k :
  lib_call "FindNextField" [GP (VBytes it); GP (VNum k)] σ =
  let* (it, buf) := FindNextField (find_fuel it) it k in Ok ([GP (VBytes it); GP (VBytes buf)], σ).
Proof. reflexivity. Qed.
Lemma l_decode σ l ty m b ks : σ !! l = Some (OMsg ty m) ->
  lib_call "Decode" [GP (VBytes b); GOffs l; GSet ks] σ =
  let* (err, o) := Decode (fuel_of (default [] b)) (default [] b) (moff m) ks in
  Ok ([GErr err], <[l := OMsg ty (mkMsg (mbuf m) o)]> σ).
Proof. intros H. cbn [lib_call]. rewrite H. reflexivity. Qed.

(** ** The methods *)
Section behave.
Context (ds : list decl).

Ltac ev :=
  lazymatch goal with
  | |- eval _ _ _ _ (EId "nil") = _ => apply e_nil; first [reflexivity|assumption]
  | |- eval _ _ _ _ (EId "true") = _ => apply e_true; first [reflexivity|assumption]
  | |- eval _ _ _ _ (EId "false") = _ => apply e_false; first [reflexivity|assumption]
  | |- eval _ _ _ _ (EId _) = _ => first [apply e_var; reflexivity | apply e_set; [reflexivity|eassumption]]
  | |- eval _ _ _ _ (EInt _) = _ => apply e_int
  | |- eval _ _ _ _ mbuf_e = _ => eapply e_buf; [reflexivity|eassumption]
  | |- eval _ _ _ _ (EAddr mbuf_e) = _ => eapply e_addr_buf; reflexivity
  | |- eval _ _ _ _ offs = _ => eapply e_offs; [reflexivity|reflexivity|eassumption]
  | |- eval _ _ _ _ (EDeref _) = _ => eapply e_deref; [reflexivity|eassumption]
  end.
Ltac args := repeat (erewrite es_cons; [|ev]); try rewrite es_nil; cbn [rbind snd].

Lemma b_encode n σ l ty m : find_method ds ty "Encode" = Some (encode_decl ty) -> σ !! l = Some (OMsg ty m) ->
  invoke ds (20 + n) σ l "Encode" [] = Ok ([GP (VBytes (Some (m_Encode m)))], σ).
Proof.
  intros H1 H2. cbn [Nat.add]. erewrite i_method by eassumption. cbn [bind_params rbind]. rewrite x_return.
  args. done.
Qed.

Lemma a_buf σ ρ l ty m b : lookup_var ρ "m" = Some (GObj l) -> σ !! l = Some (OMsg ty m) ->
  assigns σ ρ [mbuf_e] [GP (VBytes b)] = Ok (<[l := OMsg ty (mkMsg (default [] b) (moff m))]> σ, ρ).
Proof. intros H1 H2. cbn [assigns assign mbuf_e]. rewrite H1, H2. done. Qed.

Lemma b_decode n σ l ty N ks m b : find_method ds ty "Decode" = Some (decode_decl ty) ->
  find_set ds ("repeatedFields_" +:+ ty) = Some ks ->
  σ !! l = Some (OMsg ty m) ->
  invoke ds (20 + n) σ l "Decode" [GP (VBytes b)] =
  let* (err, m') := m_Decode (mkMtype N ks) m (default [] b) in Ok ([GErr err], <[l := OMsg ty m']> σ).
Proof.
  intros H1 H3 H2. cbn [Nat.add]. erewrite i_method by eassumption. cbn [bind_params rbind to_type bytes_t].
  rewrite x_assign. erewrite e_var by reflexivity. cbn [rbind snd]. erewrite a_buf by first [reflexivity|eassumption].
  cbn [rbind]. set (σ1 := <[l := _]> σ). assert (L1 : σ1 !! l = Some (OMsg ty (mkMsg (default [] b) (moff m)))) by apply lookup_insert.
  rewrite x_return, es_last, e_lib by done. args. cbn [rbind]. erewrite l_decode by eassumption.
  unfold m_Decode. cbn [reps moff mbuf default option_map from_option id].
  destruct (Decode _ _ _ _) as [[err o]| | |]; try done. cbn. unfold σ1. rewrite insert_insert. done.
Qed.

Lemma b_reset n σ l ty m b : find_method ds ty "Reset" = Some (reset_decl ty) -> find_type ds "len" = None -> find_type ds "panic" = None ->
  σ !! l = Some (OMsg ty m) ->
  invoke ds (20 + n) σ l "Reset" [GP (VBytes b)] =
  let* m' := m_Reset m (default [] b) in Ok ([], <[l := OMsg ty m']> σ).
Proof.
  intros H1 H3 H4 H2. cbn [Nat.add]. erewrite i_method by eassumption. cbn [bind_params rbind to_type bytes_t].
  erewrite x_if; [|eapply e_len; first [reflexivity|assumption]]. unfold m_Reset. destruct (0 <? zlen (default [] b)).
  - rewrite x_expr, e_panic; try done.
  - rewrite x_assign. erewrite e_var by reflexivity. cbn [rbind snd]. erewrite a_buf by first [reflexivity|eassumption].
    cbn [rbind]. set (σ1 := <[l := _]> σ). assert (L1 : σ1 !! l = Some (OMsg ty (mkMsg (default [] b) (moff m)))) by apply lookup_insert.
    rewrite x_expr. erewrite e_clear by first [reflexivity|eassumption]. cbn [rbind]. rewrite x_end. cbn [rbind moff mbuf]. unfold σ1.
    rewrite insert_insert. done.
Qed.

Lemma to_type_gp g v : to_type g (GP v) = GP v.
Proof.
  destruct g; try done. cbn [to_type].
  repeat (first [reflexivity | match goal with |- context [match ?s with EmptyString => _ | _ => _ end] => destruct s as [|[[] [] [] [] [] [] [] []] ?] end]).
Qed.
Lemma b_get n σ l ty m nm g fn T k : find_method ds ty nm = Some (List.nth 0 (simple_decls ty nm g fn k) (DType "" bytes_t)) ->
  (fn, T) ∈ codecs -> σ !! l = Some (OMsg ty m) ->
  invoke ds (20 + n) σ l nm [] = let* v := m_get T m k in Ok ([GP v], σ).
Proof.
  intros H1 HT H2. cbn [Nat.add]. cbn [List.nth simple_decls message_decls repeated_decls] in H1. erewrite i_method by eassumption. cbn [bind_params rbind].
  rewrite x_return, es_last, e_lib by done. args. cbn [rbind].  erewrite l_get by eassumption.
  destruct (m_get T m k); try done. cbn [rbind one List.length Nat.eqb to_types]. rewrite to_type_gp. done.
Qed.

Lemma b_set n σ l ty m nm g fn T k v : find_method ds ty ("Set" +:+ nm) = Some (List.nth 1 (simple_decls ty nm g fn k) (DType "" bytes_t)) ->
  (fn, T) ∈ codecs -> σ !! l = Some (OMsg ty m) ->
  invoke ds (20 + n) σ l ("Set" +:+ nm) [GP v] = let* m' := m_set T m k v in Ok ([], <[l := OMsg ty m']> σ).
Proof.
  intros H1 HT H2. cbn [Nat.add]. cbn [List.nth simple_decls message_decls repeated_decls] in H1. erewrite i_method by eassumption.
  assert (E : bind_params σ [("x", g)] [GP v] = Ok ([("x", GP v)], σ)).
  { cbn [bind_params rbind]. rewrite to_type_gp. destruct g; done. }
  rewrite E. cbn [rbind]. rewrite x_expr, e_lib by done. args. erewrite l_set by eassumption.
  destruct (m_set T m k v); reflexivity.
Qed.

Lemma fresh_ne (σ : heap) l o : σ !! l = Some o -> fresh (dom σ) <> l.
Proof. intros H E. apply (is_fresh (dom σ)). rewrite E. apply elem_of_dom. eauto. Qed.

Ltac fold20 := match goal with |- context [invoke ds (S (S (S (S (S (S (S (S (S (S (S (S (S (S (S (S (S (S (S (S ?k))))))))))))))))))))] => change (invoke ds (S (S (S (S (S (S (S (S (S (S (S (S (S (S (S (S (S (S (S (S k))))))))))))))))))))) with (invoke ds (20 + k)) end.

Section child.
Context (t : string) (N : nat) (ks : list Z).
Context (Henc : find_method ds t "Encode" = Some (encode_decl t)).
Context (Hdec : find_method ds t "Decode" = Some (decode_decl t)).
Context (Htab : find_set ds ("repeatedFields_" +:+ t) = Some ks).
Context (N1 : find_set ds "nil" = None) (N2 : find_type ds "nil" = None).
Context (T1 : find_set ds "true" = None) (T2 : find_type ds "true" = None).
Context (F1 : find_set ds "false" = None) (F2 : find_type ds "false" = None).

Lemma b_message n σ l l' ty m x nm k :
  find_method ds ty nm = Some (List.nth 0 (message_decls ty nm t k) (DType "" bytes_t)) ->
  σ !! l = Some (OMsg ty m) -> σ !! l' = Some (OMsg t x) ->
  invoke ds (40 + n) σ l nm [GObj l'] =
  let* (ok, err, x') := m_Message (mkMtype N ks) m k x in Ok ([GP (VBool ok); GErr err], <[l' := OMsg t x']> σ).
Proof.
  intros H1 H2 H3. cbn [Nat.add]. cbn [List.nth simple_decls message_decls repeated_decls] in H1. erewrite i_method by eassumption. cbn [bind_params rbind to_type].
  rewrite x_define, e_lib by done. args. change "GetBytes" with ("Get" +:+ "Bytes"). rewrite (l_get "Bytes" PBytes σ l ty m k); [|exact bytes_codec|done].
  unfold m_Message. cbn [m_get]. destruct (GetBytes (mbuf m) (moff m) k) as [b| | |]; try done. cbn [rbind defines].
  unfold nil_check. erewrite x_if; [|eapply e_isnil; first [reflexivity|assumption]].
  destruct b as [b|].
  - rewrite x_return. args.
    rewrite es_last. erewrite e_method by first [reflexivity|discriminate]. args.
    fold20.
    rewrite (b_decode _ σ l' t N ks x (Some b)) by done. cbn [default from_option id].
    destruct (m_Decode _ x b) as [[err x']| | |]; done.
  - rewrite x_return. args. cbn. rewrite insert_id by done. done.
Qed.

Lemma b_set_message n σ l l' ty m x nm k :
  find_method ds ty ("Set" +:+ nm) = Some (List.nth 1 (message_decls ty nm t k) (DType "" bytes_t)) ->
  σ !! l = Some (OMsg ty m) -> σ !! l' = Some (OMsg t x) ->
  invoke ds (40 + n) σ l ("Set" +:+ nm) [GObj l'] =
  let* m' := m_SetMessage m k x in Ok ([], <[l := OMsg ty m']> (<[fresh (dom σ) := OMsg t x]> σ)).
Proof.
  intros H1 H2 H3. cbn [Nat.add]. cbn [List.nth simple_decls message_decls repeated_decls] in H1. erewrite i_method by eassumption. cbn [bind_params rbind to_type]. rewrite H3. cbn [rbind].
  set (l1 := fresh (dom σ)). set (σ1 := <[l1 := _]> σ). assert (Hl1 := fresh_ne _ _ _ H2). fold l1 in Hl1.
  assert (L1 : σ1 !! l1 = Some (OMsg t x)) by apply lookup_insert.
  assert (L2 : σ1 !! l = Some (OMsg ty m)) by (unfold σ1; rewrite lookup_insert_ne; done).
  rewrite x_define. erewrite e_method by first [reflexivity|discriminate]. args.
  fold20.
  rewrite (b_encode _ σ1 l1 t x) by done. cbn [rbind defines Nat.add].
  rewrite x_expr, e_lib by done. args. change "SetBytes" with ("Set" +:+ "Bytes").
  rewrite (l_set "Bytes" PBytes σ1 l ty m k _); [|exact bytes_codec|done].
  unfold m_SetMessage. destruct (m_set PBytes m k _); reflexivity.
Qed.

Lemma b_append n σ l l' ty m x nm it k :
  find_method ds ty ("AppendTo" +:+ nm) = Some (List.nth 3 (repeated_decls ty nm t it k) (DType "" bytes_t)) ->
  σ !! l = Some (OMsg ty m) -> σ !! l' = Some (OMsg t x) ->
  invoke ds (40 + n) σ l ("AppendTo" +:+ nm) [GObj l'] =
  let* m' := m_AppendTo m k x in Ok ([], <[l := OMsg ty m']> (<[fresh (dom σ) := OMsg t x]> σ)).
Proof.
  intros H1 H2 H3. cbn [Nat.add]. cbn [List.nth simple_decls message_decls repeated_decls] in H1. erewrite i_method by eassumption. cbn [bind_params rbind to_type]. rewrite H3. cbn [rbind].
  set (l1 := fresh (dom σ)). set (σ1 := <[l1 := _]> σ). assert (Hl1 := fresh_ne _ _ _ H2). fold l1 in Hl1.
  assert (L1 : σ1 !! l1 = Some (OMsg t x)) by apply lookup_insert.
  assert (L2 : σ1 !! l = Some (OMsg ty m)) by (unfold σ1; rewrite lookup_insert_ne; done).
  rewrite x_define. erewrite e_method by first [reflexivity|discriminate]. args.
  fold20.
  rewrite (b_encode _ σ1 l1 t x) by done. cbn [rbind defines Nat.add].
  rewrite x_expr, e_lib by done. args. erewrite l_append by eassumption.
  unfold m_AppendTo. cbn [default from_option id]. destruct (m_append m k _); reflexivity.
Qed.

Lemma b_iter n σ l ty m nm it k :
  find_method ds ty nm = Some (List.nth 2 (repeated_decls ty nm t it k) (DType "" bytes_t)) ->
  find_type ds it = Some bytes_t -> it <> "m" -> σ !! l = Some (OMsg ty m) ->
  invoke ds (40 + n) σ l nm [] = let* i := m_Iter m k in Ok ([GP (VBytes i)], σ).
Proof.
  intros H1 H3 H4 H2. cbn [Nat.add]. cbn [List.nth simple_decls message_decls repeated_decls] in H1. erewrite i_method by eassumption. cbn [bind_params rbind].
  rewrite x_return, es_last. erewrite e_convert; [| |exact H3].
  2: { unfold lookup_var. cbn [find fst]. rewrite (proj2 (String.eqb_neq "m" it)) by congruence. done. }
  rewrite e_lib by done. args. erewrite l_iter by eassumption. destruct (m_Iter m k); try done.
  cbn [rbind one List.length Nat.eqb to_types]. rewrite to_type_gp. done.
Qed.

Lemma b_next n σ li l' ty nm it k i x :
  find_method ds it "Next" = Some (List.nth 1 (repeated_decls ty nm t it k) (DType "" bytes_t)) ->
  σ !! li = Some (OBytes it i) -> σ !! l' = Some (OMsg t x) ->
  invoke ds (40 + n) σ li "Next" [GObj l'] =
  let* (i', ok, err, x') := it_Next (mkMtype N ks) i k x in
  Ok ([GP (VBool ok); GErr err], <[l' := OMsg t x']> (<[li := OBytes it i']> σ)).
Proof.
  intros H1 H2 H3. assert (Hll : li <> l') by (intros ->; rewrite H2 in H3; done).
  cbn [Nat.add]. cbn [List.nth simple_decls message_decls repeated_decls] in H1. erewrite i_method by eassumption. cbn [bind_params rbind to_type].
  unfold bytes_t. rewrite x_var, x_assign, e_lib by done. args. rewrite l_next. unfold it_Next.
  destruct (FindNextField (find_fuel i) i k) as [[i' b]| | |]; try done. cbn [rbind].
  assert (E : assigns σ [("buf", GP (VBytes None)); ("i", GObj li); ("m", GObj l')] [EDeref (EId "i"); EId "buf"] [GP (VBytes i'); GP (VBytes b)] =
    Ok (<[li := OBytes it i']> σ, [("buf", GP (VBytes b)); ("i", GObj li); ("m", GObj l')])).
  { cbn [assigns assign]. change (lookup_var _ "i") with (Some (GObj li)). cbn match. rewrite H2. done. }
  rewrite E. cbn [rbind]. set (σ1 := <[li := _]> σ).
  assert (L1 : σ1 !! l' = Some (OMsg t x)) by (unfold σ1; rewrite lookup_insert_ne; done).
  unfold nil_check. erewrite x_if; [|eapply e_isnil; first [reflexivity|assumption]].
  destruct b as [b|].
  - rewrite x_return. args.
    rewrite es_last. erewrite e_method by first [reflexivity|discriminate]. args.
    fold20.
    rewrite (b_decode _ σ1 l' t N ks x (Some b)) by done. cbn [default from_option id].
    destruct (m_Decode _ x b) as [[err x']| | |]; done.
  - rewrite x_return. args. cbn. rewrite insert_id by done. done.
Qed.
End child.
End behave.

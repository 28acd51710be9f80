(** * Facts about the checker *)
From Verif Require Import GoCheck.
From Coq Require Import ZifyBool.

Lemma mem_In x l : mem x l = true <-> x ∈ l.
Proof.
  unfold mem. rewrite existsb_exists. split.
  - intros (y & Hy & E). apply String.eqb_eq in E. subst. apply elem_of_list_In. done.
  - intros H. exists x. split; [apply elem_of_list_In; done|apply String.eqb_refl].
Qed.
Lemma mem_not x l : mem x l = false <-> x ∉ l.
Proof. rewrite <- mem_In. destruct (mem x l); split; done. Qed.

Lemma distinct_NoDup {A} eqb (l : list A) :
  (forall a b, eqb a b = true <-> a = b) -> distinct eqb l = true <-> NoDup l.
Proof.
  intros H. induction l as [|a l IH]; cbn [distinct].
  - split; [intros; constructor|done].
  - rewrite andb_true_iff, negb_true_iff, IH, NoDup_cons. apply and_iff_compat_r.
    split.
    + intros E Hin. assert (existsb (eqb a) l = true); [|congruence].
      apply existsb_exists. exists a. split; [apply elem_of_list_In; done|apply H; done].
    + intros Hn. destruct (existsb (eqb a) l) eqn:E; [|done]. apply existsb_exists in E as (b & Hb & E).
      apply H in E. subst. apply elem_of_list_In in Hb. done.
Qed.
Lemma distinct_strings l : distinct String.eqb l = true <-> NoDup l.
Proof. apply distinct_NoDup. intros. apply String.eqb_eq. Qed.
Lemma key_eqb_eq a b : key_eqb a b = true <-> a = b.
Proof.
  unfold key_eqb. rewrite andb_true_iff, !String.eqb_eq. destruct a, b; cbn. split; [intros [-> ->]; done|].
  intros [= -> ->]; done.
Qed.
Lemma distinct_keys l : distinct key_eqb l = true <-> NoDup l.
Proof. apply distinct_NoDup. apply key_eqb_eq. Qed.
Lemma distinct_Z l : distinct Z.eqb l = true <-> NoDup l.
Proof. apply distinct_NoDup. intros. apply Z.eqb_eq. Qed.

Lemma ty_ind' (P : ty -> Prop) :
  (forall s, P (TU s)) -> (forall s, P (TN s)) -> (forall s, P (TZ s)) ->
  (forall t, P t -> P (TPtr t)) -> (forall t, P t -> P (TSlice t)) -> (forall n t, P t -> P (TArr n t)) ->
  (forall k v, P k -> P v -> P (TMap k v)) ->
  (forall fs, Forall (fun p => P p.2) fs -> P (TStruct fs)) -> forall t, P t.
Proof.
  intros H1 H2 H3 H4 H5 H6 H7 H8. fix IH 1. intros [s|s|s|t|t|n t|k v|fs];
    [apply H1|apply H2|apply H3|apply H4, IH|apply H5, IH|apply H6, IH|apply H7; apply IH|].
  apply H8. induction fs as [|[x t] fs IHfs]; constructor; [apply IH|done].
Qed.
Lemma ty_eqb_refl t : ty_eqb t t = true.
Proof.
  induction t using ty_ind'; cbn; rewrite ?String.eqb_refl, ?Z.eqb_refl, ?IHt, ?IHt1, ?IHt2; try done.
  induction H as [|[x t] fs Ht _ IH]; [done|]. cbn in Ht. rewrite String.eqb_refl, Ht. done.
Qed.
Lemma ty_eqb_eq : forall t u, ty_eqb t u = true <-> t = u.
Proof.
  intros t u. split; [|intros ->; apply ty_eqb_refl]. revert u.
  induction t using ty_ind'; intros [s'|s'|s'|u|u|m u|k' v'|gs] E; cbn in E; try done;
    rewrite ?andb_true_iff, ?String.eqb_eq, ?Z.eqb_eq in E.
  - congruence.
  - congruence.
  - congruence.
  - f_equal. auto.
  - f_equal. auto.
  - destruct E as [-> E]. f_equal. auto.
  - destruct E as [E1 E2]. f_equal; auto.
  - f_equal. revert gs E. induction H as [|[x t] fs Ht _ IH]; intros [|[y u] gs] E; try done.
    rewrite !andb_true_iff, String.eqb_eq in E. destruct E as [[-> E1] E2]. cbn in Ht. apply Ht in E1. subst.
    f_equal. apply IH. done.
Qed.

(** ** Looking up declarations *)
Lemma find_unique {A K} (key : A -> list K) (p : A -> bool) (k : K) l a :
  NoDup (List.concat (map key l)) -> a ∈ l -> p a = true -> k ∈ key a ->
  (forall b, p b = true -> k ∈ key b) -> find p l = Some a.
Proof.
  intros Hnd Hin Ha Hk Hp. induction l as [|b l IH]; [apply elem_of_nil in Hin; done|].
  cbn [map List.concat] in Hnd. apply NoDup_app in Hnd as (_ & Hdis & Hnd). cbn [find].
  apply elem_of_cons in Hin as [->|Hin]; [rewrite Ha; done|].
  destruct (p b) eqn:Eb; [|auto]. exfalso. apply (Hdis k); [auto|].
  apply elem_of_list_In, in_concat. exists (key a). split; [|apply elem_of_list_In; done].
  apply in_map, elem_of_list_In. done.
Qed.

Lemma pkg_names_in ds d x : d ∈ ds -> x ∈ decl_names d -> x ∈ pkg_names ds.
Proof.
  intros Hd Hx. apply elem_of_list_In, in_concat. exists (decl_names d).
  split; [apply in_map, elem_of_list_In; done|apply elem_of_list_In; done].
Qed.

Lemma find_type_in ds x g : NoDup (pkg_names ds) -> DType x g ∈ ds -> find_type ds x = Some g.
Proof.
  intros Hnd Hin. unfold find_type. rewrite (find_unique decl_names _ x ds (DType x g)); try done.
  - apply String.eqb_refl.
  - apply elem_of_list_singleton. done.
  - intros [y t|y t k|r rt f ps rs b] E; try done. apply String.eqb_eq in E. subst. apply elem_of_list_singleton. done.
Qed.
Lemma find_type_some ds x g : find_type ds x = Some g -> DType x g ∈ ds.
Proof.
  unfold find_type. destruct (find _ ds) as [d|] eqn:E; [|done]. apply find_some in E as [Hin E].
  destruct d; try done. apply String.eqb_eq in E. subst. intros [= <-]. apply elem_of_list_In. done.
Qed.
Lemma find_type_none ds x : x ∉ pkg_names ds -> find_type ds x = None.
Proof.
  intros Hx. destruct (find_type ds x) as [g|] eqn:E; [|done]. apply find_type_some in E.
  exfalso. apply Hx. eapply pkg_names_in; [exact E|]. apply elem_of_list_singleton. done.
Qed.
Lemma find_set_in ds x g ks : NoDup (pkg_names ds) -> DSet x g ks ∈ ds ->
  find (fun d => match d with DSet y _ _ => String.eqb y x | _ => false end) ds = Some (DSet x g ks).
Proof.
  intros Hnd Hin. rewrite (find_unique decl_names _ x ds (DSet x g ks)); try done.
  - apply String.eqb_refl.
  - apply elem_of_list_singleton. done.
  - intros [y t|y t k|r rt f ps rs b] E; try done. apply String.eqb_eq in E. subst. apply elem_of_list_singleton. done.
Qed.
Lemma find_set_none ds x : x ∉ pkg_names ds -> find_set ds x = None.
Proof.
  intros Hx. unfold find_set. destruct (find _ ds) as [d|] eqn:E; [|done]. apply find_some in E as [Hin E].
  destruct d; try done. apply String.eqb_eq in E. subst. exfalso. apply Hx. eapply pkg_names_in; [apply elem_of_list_In; exact Hin|].
  apply elem_of_list_singleton. done.
Qed.
Definition decl_key (d : decl) : list (string * string) :=
  match d with DFunc _ (GPtr (GName x)) f _ _ _ => [(x, f)] | _ => [] end.
Lemma find_method_in ds r x f ps rs b :
  NoDup (method_keys ds) -> DFunc r (GPtr (GName x)) f ps rs b ∈ ds ->
  find_method ds x f = Some (DFunc r (GPtr (GName x)) f ps rs b).
Proof.
  intros Hnd Hin. unfold find_method. rewrite (find_unique decl_key _ (x, f) ds (DFunc r (GPtr (GName x)) f ps rs b)); try done.
  - rewrite !String.eqb_refl. done.
  - apply elem_of_list_singleton. done.
  - intros [y t|y t k|r' rt f' ps' rs' b'] E; try done. destruct rt as [|? ?|[]| | | |]; try done.
    apply andb_true_iff in E as [E1 E2]. apply String.eqb_eq in E1, E2. subst. apply elem_of_list_singleton. done.
Qed.
Lemma find_method_some ds x f d : find_method ds x f = Some d ->
  exists r ps rs b, d = DFunc r (GPtr (GName x)) f ps rs b /\ d ∈ ds.
Proof.
  unfold find_method. intros E. apply find_some in E as [Hin E].
  destruct d as [y t|y t k|r' rt f' ps' rs' b']; try done. destruct rt as [|? ?|[]| | | |]; try done.
  apply andb_true_iff in E as [E1 E2]. apply String.eqb_eq in E1, E2. subst. do 4 eexists. split; [done|].
  apply elem_of_list_In. done.
Qed.

(** ** Typing rules *)
Definition typeofs (ds : list decl) (im : list string) (Γ : list (string * ty)) : list expr -> option (list ety) :=
  fix go (es : list expr) : option (list ety) :=
    match es with
    | [] => Some []
    | e :: es => match typeof ds im Γ e, go es with Some t, Some ts => Some (t :: ts) | _, _ => None end
    end.

Section rules.
Context (ds : list decl) (im : list string) (Γ : list (string * ty)).
Notation typeof := (typeof ds im Γ).
Notation typeofs := (typeofs ds im Γ).

Lemma typeofs_cons e es t ts : typeof e = Some t -> typeofs es = Some ts -> typeofs (e :: es) = Some (t :: ts).
Proof.
  intros H1 H2.
  change (typeofs (e :: es)) with (match typeof e, typeofs es with Some t, Some ts => Some (t :: ts) | _, _ => None end).
  rewrite H1, H2. done.
Qed.
Lemma typeof_call e f es :
  typeof (ECall (ESel e f) es) =
    let method :=
      match typeof e with
      | Some (EV (TPtr (TN x)) _) | Some (EV (TN x) true) =>
        match typeofs es with Some ts => call ds im (method_sig ds im x f) ts | None => None end
      | Some (EV (TZ x) _) =>
        if String.eqb x "Offsets" then
          match typeofs es with Some ts => call ds im (offsets_method f) ts | None => None end
        else None
      | _ => None
      end in
    match e with
    | EId p =>
      match local Γ p with
      | Some _ => method
      | None =>
        if mem p (pkg_names ds) then method
        else if mem p im && String.eqb p "zeropb" then
          match typeofs es with Some ts => call ds im (zeropb_func f) ts | None => None end
        else None
      end
    | _ => method
    end.
Proof. destruct e; reflexivity. Qed.
Lemma t_var x t : local Γ x = Some t -> typeof (EId x) = Some (EV t true).
Proof. intros H. cbn. rewrite H. done. Qed.
Lemma t_sel_ptr e x t a fs t' : typeof e = Some (EV (TPtr t) a) -> fields_of ds im t = Some fs -> field_type fs x = Some t' ->
  typeof (ESel e x) = Some (EV t' true).
Proof. intros H1 H2 H3. cbn. rewrite H1, H2, H3. done. Qed.
Lemma t_sel_struct e x a fs t' : typeof e = Some (EV (TStruct fs) a) -> field_type fs x = Some t' ->
  typeof (ESel e x) = Some (EV t' a).
Proof. intros H1 H3. cbn. rewrite H1. cbn. rewrite H3. done. Qed.
Lemma t_all e n t : typeof e = Some (EV (TArr n t) true) -> typeof (EAll e) = Some (EV (TSlice t) false).
Proof. intros H. cbn. rewrite H. done. Qed.
Lemma t_addr e t : typeof e = Some (EV t true) -> typeof (EAddr e) = Some (EV (TPtr t) false).
Proof. intros H. cbn. rewrite H. done. Qed.
Lemma t_deref e t a : typeof e = Some (EV (TPtr t) a) -> typeof (EDeref e) = Some (EV t true).
Proof. intros H. cbn. rewrite H. done. Qed.
Lemma t_int z : typeof (EInt z) = Some (EConstInt z).
Proof. done. Qed.

Definition result (rs : list ty) : ety := match rs with [t] => EV t false | _ => EMulti rs end.
Lemma t_zeropb fn es ts ps rs :
  local Γ "zeropb" = None -> mem "zeropb" (pkg_names ds) = false -> mem "zeropb" im = true ->
  typeofs es = Some ts -> zeropb_func fn = Some (ps, rs) -> usables ds im ts ps = true ->
  typeof (ECall (ESel (EId "zeropb") fn) es) = Some (result rs).
Proof.
  intros H1 H2 H3 H4 H5 H6. rewrite typeof_call. cbn zeta. rewrite H1, H2, H3, H4, H5.
  unfold call. rewrite H6. done.
Qed.
Lemma t_method e f es x ts ps rs :
  (forall p, e = EId p -> is_Some (local Γ p)) ->
  (exists a, typeof e = Some (EV (TPtr (TN x)) a)) \/ typeof e = Some (EV (TN x) true) ->
  typeofs es = Some ts -> method_sig ds im x f = Some (ps, rs) -> usables ds im ts ps = true ->
  typeof (ECall (ESel e f) es) = Some (result rs).
Proof.
  intros H1 H2 H4 H5 H6. rewrite typeof_call. cbn zeta.
  destruct e; try (destruct H2 as [[? ->] | ->]; rewrite H4, H5; unfold call; rewrite H6; done).
  destruct (H1 s eq_refl) as [t Ht]. rewrite Ht.
  destruct H2 as [[? ->] | ->]; rewrite H4, H5; unfold call; rewrite H6; done.
Qed.
Lemma t_offsets_method e f es a ts ps rs :
  (forall p, e = EId p -> is_Some (local Γ p)) ->
  typeof e = Some (EV (TZ "Offsets") a) ->
  typeofs es = Some ts -> offsets_method f = Some (ps, rs) -> usables ds im ts ps = true ->
  typeof (ECall (ESel e f) es) = Some (result rs).
Proof.
  intros H1 H2 H4 H5 H6. rewrite typeof_call. cbn zeta.
  destruct e; try (rewrite H2, H4, H5; unfold call; rewrite H6; done).
  destruct (H1 s eq_refl) as [t Ht]. rewrite Ht, H2, H4, H5. unfold call. rewrite H6. done.
Qed.
Lemma t_convert x e g t a :
  local Γ x = None -> find_type ds x = Some g -> typeof e = Some (EV t a) -> same_underlying ds im t (TN x) = true ->
  typeof (ECall (EId x) [e]) = Some (EV (TN x) false).
Proof.
  intros H1 H2 H3 H4. cbn. rewrite H1.
  assert (Hm : mem x (pkg_names ds) = true).
  { apply mem_In. apply find_type_some in H2. eapply pkg_names_in; [exact H2|]. apply elem_of_list_singleton. done. }
  rewrite Hm, H2, H3, H4, orb_true_r. done.
Qed.
Lemma t_len e t u a :
  local Γ "len" = None -> mem "len" (pkg_names ds) = false -> mem "len" im = false ->
  typeof e = Some (EV t a) -> underlying ds im t = Some (TSlice u) ->
  typeof (ECall (EId "len") [e]) = Some (EV (TU "int") false).
Proof. intros H1 H2 H3 H4 H5. cbn. rewrite H1, H2, H3, H4, H5. done. Qed.
Lemma t_panic s :
  local Γ "panic" = None -> mem "panic" (pkg_names ds) = false -> mem "panic" im = false ->
  typeof (ECall (EId "panic") [ELit s]) = Some (EMulti []).
Proof. intros H1 H2 H3. cbn. rewrite H1, H2, H3. done. Qed.
Lemma t_nil : local Γ "nil" = None -> mem "nil" (pkg_names ds) = false -> mem "nil" im = false -> typeof (EId "nil") = Some ENil.
Proof. intros H1 H2 H3. cbn. rewrite H1, H2, H3. done. Qed.
Lemma t_bool x : x = "true" \/ x = "false" ->
  local Γ x = None -> mem x (pkg_names ds) = false -> mem x im = false -> typeof (EId x) = Some EConstBool.
Proof. intros [-> | ->] H1 H2 H3; cbn; rewrite H1, H2, H3; done. Qed.
Lemma t_eqnil e1 e2 t a : typeof e1 = Some (EV t a) -> typeof e2 = Some ENil -> nilable ds im t = true ->
  typeof (EBin OpEq e1 e2) = Some (EV (TU "bool") false).
Proof. intros H1 H2 H3. cbn. rewrite H1, H2, H3. done. Qed.
Lemma t_gt e1 e2 t a z : typeof e1 = Some (EV t a) -> typeof e2 = Some (EConstInt z) -> fits z t = true ->
  typeof (EBin OpGt e1 e2) = Some (EV (TU "bool") false).
Proof. intros H1 H2 H3. cbn. rewrite H1, H2, H3. done. Qed.
Lemma assignable_refl t : assignable ds im t t = true.
Proof. unfold assignable. rewrite ty_eqb_refl. done. Qed.
End rules.

(** * Facts for the generator's remaining properties *)
From Verif Require Import Gen GoLang Spec GenSpec GenLex GenText GenNames GenAst GenFile.
From Coq Require Import ZifyBool.

(** ** Which descriptors are refused *)
Definition gen_panics (g : tree -> res tree) : Prop := forall w, g (mkST w "  " None) = Panic.
Definition either (P : Prop) (g : tree -> res tree) : Prop := (~ P /\ exists s, gen_appends g s) \/ (P /\ gen_panics g).

Lemma either_ok g s (P : Prop) : ~ P -> gen_appends g s -> either P g.
Proof. left. eauto. Qed.
Lemma either_ext P Q g : (P <-> Q) -> either P g -> either Q g.
Proof. intros E [[H1 H2]|[H1 H2]]; [left|right]; split; try done; tauto. Qed.
Lemma either_bind P1 P2 g1 g2 : either P1 g1 -> either P2 g2 -> either (P1 \/ P2) (fun st => let* st := g1 st in g2 st).
Proof.
  intros [(H1 & s1 & E1)|(H1 & E1)] H2.
  - destruct H2 as [(H2 & s2 & E2)|(H2 & E2)].
    + left. split; [tauto|]. exists (s1 +:+ s2). apply appends_bind; done.
    + right. split; [auto|]. intros w. rewrite E1. cbn [rbind]. apply E2.
  - right. split; [auto|]. intros w. rewrite E1. done.
Qed.
Lemma either_each {A} (P : A -> Prop) (l : list A) body :
  (forall a, a ∈ l -> either (P a) (fun st => body st a)) -> either (exists a, a ∈ l /\ P a) (fun st => for_each st l body).
Proof.
  induction l as [|a l IH]; intros H.
  - left. split; [intros (a & Ha & _); apply elem_of_nil in Ha; done|]. exists "". apply appends_nil.
  - cbn [for_each]. eapply either_ext; [|apply either_bind; [apply H, elem_of_list_here|apply IH; intros b Hb; apply H, elem_of_list_further, Hb]].
    split.
    + intros [HP|(b & Hb & HP)]; [exists a; split; [apply elem_of_list_here|done]|exists b; split; [apply elem_of_list_further|]; done].
    + intros (b & Hb & HP). apply elem_of_cons in Hb as [->|Hb]; eauto.
Qed.
Lemma either_puts calls : forallb (forallb fine) calls = true -> either False (fun st => puts st calls).
Proof. intros H. left. split; [tauto|]. eexists. apply puts_fine, H. Qed.

Lemma simple_or t : (exists ty fn, fieldToGoTypeSimple t = Ok (ty, fn) /\ t <> 11 /\ is_Some (declared_type t)) \/
  fieldToGoTypeSimple t = Panic /\ declared_type t = None.
Proof.
  destruct (declared_type t) as [x|] eqn:E.
  - left. destruct (simple_table t) as (ty & fn & H1 & H2 & _); [rewrite E; eauto|]. exists ty, fn. split; [done|]. split; [exact H2|eauto].
  - right. split; [|done]. unfold fieldToGoTypeSimple.
    repeat match goal with |- (if ?b then _ else _) = _ => destruct b eqn:?; [exfalso|] end; [..|done];
    match goal with H : (t =? ?c) = true |- _ => apply Z.eqb_eq in H; subst t; discriminate E end.
Qed.

Lemma field_either mt f : either (unsupported_field f) (fun st => generateField st 0 mt f).
Proof.
  destruct f as [f|]; [|left; split; [intros [? _]; done|]; exists ""; apply appends_nil].
  unfold generateField. set (F := Some f). assert (HF : F <> None) by done. clearbody F.
  destruct ((getLabel F =? LABEL_OPTIONAL) || (getLabel F =? LABEL_REQUIRED)) eqn:El.
  - assert (Hs : single F) by (unfold single, LABEL_OPTIONAL, LABEL_REQUIRED in *; lia).
    destruct (getType F =? TYPE_MESSAGE) eqn:Et.
    + eapply either_ext; [|apply either_puts; done]. split; [done|]. intros (_ & _ & H & _). unfold TYPE_MESSAGE in Et. lia.
    + unfold generateSimpleField. destruct (simple_or (getType F)) as [(ty & fn & E & Hne & Hd)|[E Hd]]; rewrite E; cbn [rbind].
      * eapply either_ext; [|apply either_puts; done]. split; [done|]. intros (_ & _ & _ & H). rewrite H in Hd. destruct Hd; done.
      * right. split; [|intros w; done]. unfold unsupported_field, TYPE_MESSAGE in *. split; [done|]. split; [done|]. split; [lia|done].
  - assert (Hs : ~ single F) by (unfold single, LABEL_OPTIONAL, LABEL_REQUIRED in *; lia).
    assert (Hu : ~ unsupported_field F) by (intros (_ & H & _); done).
    destruct (getLabel F =? LABEL_REPEATED); [destruct (getType F =? TYPE_MESSAGE)|].
    + eapply either_ext; [|apply either_puts; done]. tauto.
    + left. split; [done|]. exists "". apply appends_nil.
    + left. split; [done|]. exists "". apply appends_nil.
Qed.
Lemma message_either d : either (exists x, x ∈ d_fields d /\ unsupported_field x) (fun st => generateMessage st 0 d).
Proof.
  unfold generateMessage. cbn zeta.
  eapply either_ext; [|apply either_bind; [apply either_puts; done|apply either_bind; [apply (either_each (fun _ => False))|apply either_bind; [apply either_puts; done|]]]].
  2: { intros f _. destruct (getLabel f =? LABEL_REPEATED).
       - left. split; [tauto|]. eexists. apply put_fine. done.
       - left. split; [tauto|]. exists "". apply appends_nil. }
  2: { apply either_each. intros f _. apply field_either. }
  cbn beta. split; [intros [?|[(? & ? & ?)|[?|?]]]; done|auto].
Qed.
Lemma file_dich f : (~ unsupported_file f /\ exists content, generateFile f = Ok (ReplaceAll (default "" (fl_name f)) ".proto" ".zeropb.go", content)) \/
  (unsupported_file f /\ generateFile f = Panic).
Proof.
  unfold generateFile. set (calls := [_; _; _]).
  assert (H : either (unsupported_file f) (fun st => let* st := puts st calls in for_each st (fl_messages f) (fun st m =>
    match m with None => Ok st | Some m => generateMessage st 0 m end))).
  { eapply either_ext; [|apply either_bind; [apply either_puts; done|]].
    2: { apply (either_each (fun m => match m with None => False | Some d => exists x, x ∈ d_fields d /\ unsupported_field x end)).
         intros [d|] _; [apply message_either|]. left. split; [tauto|]. exists "". apply appends_nil. }
    unfold unsupported_file. split.
    - intros [[]|([d|] & Hd & HP)]; [|done]. destruct HP as (x & Hx & Hu). exists d, x. split; [|done].
      unfold somes. apply elem_of_list_omap. exists (Some d). done.
    - intros (d & x & Hd & Hx & Hu). right. exists (Some d). split; [|eauto]. unfold somes in Hd. apply elem_of_list_omap in Hd as (o & Ho & E). cbn in E. subst o. done. }
  destruct H as [(H & s & E)|(H & E)]; specialize (E ""); [left|right]; (split; [done|]).
  - cbn beta zeta in E |- *. destruct (puts _ calls) as [st| | |]; try done. cbn [rbind] in *. rewrite E. cbn [rbind st_w]. eauto.
  - cbn beta zeta in E |- *. destruct (puts _ calls) as [st| | |]; try done. cbn [rbind] in *. rewrite E. done.
Qed.

(** ** Requests *)
Lemma generate_requested r : Generate r =
  fold_right (fun f rest => let* x := generateFile f in let* xs := rest in Ok (x :: xs)) (Ok []) (requested r).
Proof.
  unfold Generate, requested, somes. induction (rq_protos r) as [|[f|] ps IH]; [done| |exact IH].
  cbn [generate_files omap list_omap id List.filter]. 
  assert (E : existsb (String.eqb (default "" (fl_name f))) (rq_files r) = bool_decide (default "" (fl_name f) ∈ rq_files r)).
  { apply eq_true_iff_eq. rewrite existsb_exists, bool_decide_eq_true. split.
    - intros (x & Hx & Ex). apply String.eqb_eq in Ex. rewrite Ex. apply elem_of_list_In. done.
    - intros Hx. exists (default "" (fl_name f)). split; [apply elem_of_list_In; done|apply String.eqb_refl]. }
  rewrite E. destruct (bool_decide _); cbn [fold_right]; [|exact IH]. rewrite IH. done.
Qed.
Lemma generate_ok r out : Generate r = Ok out <-> Forall2 (fun f p => generateFile f = Ok p) (requested r) out.
Proof.
  rewrite generate_requested. revert out. induction (requested r) as [|f fs IH]; intros out; cbn [fold_right].
  - split; [intros [= <-]; constructor|intros H; inversion H; done].
  - split.
    + destruct (generateFile f) as [x| | |] eqn:Ex; try done. cbn [rbind].
      destruct (fold_right _ _ fs) as [xs| | |] eqn:Exs; try done. cbn [rbind]. intros [= <-]. constructor; [done|]. apply IH. done.
    + intros H. inversion H as [|? p ? ps H1 H2]; subst. rewrite H1. cbn [rbind]. apply IH in H2. rewrite H2. done.
Qed.

(** ** Names *)
Lemma runs_cons {R} (keep : R -> bool) s : exists w ws, runs keep s = w :: ws.
Proof. induction s as [|r s (w & ws & E)]; [eexists _, _; done|]. cbn. destruct (keep r); [rewrite E|]; eexists _, _; done. Qed.
Lemma runs_filter {R} (keep : R -> bool) s : List.concat (runs keep s) = List.filter keep s.
Proof.
  induction s as [|r s IH]; [done|]. cbn. destruct (keep r); [|exact IH]. destruct (runs_cons keep s) as (w & ws & E). rewrite E in *. cbn in *. rewrite <- IH. done.
Qed.
Lemma runs_keep {R} (keep : R -> bool) s : Forall (Forall (fun r => keep r = true)) (runs keep s).
Proof.
  induction s as [|r s IH]; [repeat constructor|]. cbn. destruct (keep r) eqn:K; [|constructor; [constructor|done]].
  destruct (runs_cons keep s) as (w & ws & E). rewrite E in *. inversion IH; subst. constructor; [constructor; done|done].
Qed.
Lemma go_case_runs {R} isl isd (title : R -> R) s :
  let keep r := isl r || isd r in
  go_case isl isd title true s = List.concat (map (with_first title) (runs keep s)) /\
  go_case isl isd title false s = match runs keep s with w :: ws => w ++ List.concat (map (with_first title) ws) | [] => [] end.
Proof.
  intros keep. induction s as [|r s [IH1 IH2]]; [done|]. cbn [go_case runs].
  assert (E : negb (isl r) && negb (isd r) = negb (keep r)) by (unfold keep; destruct (isl r), (isd r); done).
  rewrite E. destruct (keep r); cbn [negb]; cbn match.
  - destruct (runs_cons keep s) as (w & ws & Er). rewrite Er in *. cbn [map List.concat with_first app]. rewrite IH2. done.
  - rewrite IH1. done.
Qed.

(** ** The indenting writer *)


Lemma st_write_spec {E} (resp : list string -> option E) ind args : forall h ss,
  Forall2 (fun a s => render ind a = Ok s) args ss ->
  exists k err, st_write (any_writer resp) (mkST h ind None) args = Ok (mkST (h ++ take k ss) ind err) /\
    (k <= List.length ss)%nat /\
    (forall j, (0 < j < k)%nat -> resp (h ++ take j ss) = None) /\
    (err = if Nat.eqb k 0 then None else resp (h ++ take k ss)) /\
    (err = None -> k = List.length ss).
Proof.
  induction args as [|a args IH]; intros h ss H; inversion H as [|? s ? ss' Hr Hrs]; subst.
  - exists 0%nat, None. cbn. rewrite app_nil_r. split; [done|]. split; [done|]. split; [intros; lia|]. done.
  - cbn [st_write st_err st_indent st_w]. rewrite Hr. cbn [rbind any_writer].
    destruct (resp (h ++ [s])) as [e|] eqn:Er.
    + exists 1%nat, (Some e). cbn [take Nat.eqb]. split.
      { destruct args; done. }
      split; [cbn; lia|]. split; [intros j Hj; lia|]. split; [done|]. intros; done.
    + destruct (IH (h ++ [s]) ss' Hrs) as (k & err & E1 & E2 & E3 & E4 & E5).
      exists (S k), err. cbn [take Nat.eqb]. rewrite E1, <- app_assoc. cbn [app]. split; [done|]. split; [cbn; lia|]. split; [|split].
      * intros j Hj. destruct j as [|[|j]]; [lia|exact Er|]. specialize (E3 (S j)). rewrite <- app_assoc in E3. apply E3. lia.
      * rewrite E4. destruct k; cbn [Nat.eqb take]; [|rewrite <- app_assoc; done]. rewrite ?take_0. symmetry. exact Er.
      * intros H'. cbn. rewrite E5 by done. done.
Qed.
Lemma st_write_err {W E} (wr : writer W E) w ind e args : st_write wr (mkST w ind (Some e)) args = Ok (mkST w ind (Some e)).
Proof. destruct args; done. Qed.

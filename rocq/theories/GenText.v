(** * The text the generator writes *)
From Verif Require Import Gen GoLang GenLex GenSpec.
From Coq Require Import ZifyBool.

(** The text of an argument of Write, with the indentation of generateFile. *)
Definition atext (a : arg) : string :=
  match a with
  | AIndent i => repeat_str "  " (Z.to_nat i)
  | ABytes s | AStr s | AStringer s => s
  | AInt z => itoa z
  | AOther => ""
  end.
Definition fine (a : arg) : bool :=
  match a with AIndent i => 0 <=? i | AOther => false | _ => true end.
Definition text (calls : list (list arg)) : string := sconcat (map atext (List.concat calls)).

Lemma sconcat_app a b : sconcat (a ++ b) = sconcat a +:+ sconcat b.
Proof. unfold sconcat. induction a as [|x a IH]; [done|]. cbn [app fold_right]. rewrite IH, sapp_assoc. done. Qed.

(** [g] appends [s] to what was written, whatever that was. *)
Definition gen_appends (g : tree -> res tree) (s : string) : Prop :=
  forall w, g (mkST w "  " None) = Ok (mkST (w +:+ s) "  " None).

Lemma put_fine args : forallb fine args = true -> gen_appends (fun st => put st args) (sconcat (map atext args)).
Proof.
  unfold put. induction args as [|a args IH]; intros H w.
  - cbn. rewrite sapp_nil. done.
  - cbn [forallb] in H. apply andb_true_iff in H as [Ha H]. cbn [st_write st_err st_indent st_w].
    assert (Hr : render "  " a = Ok (atext a)).
    { destruct a; try done. cbn in *. replace (i <? 0) with false by lia. done. }
    rewrite Hr. cbn [rbind]. cbn [builder]. rewrite (IH H). cbn [map sconcat fold_right].
    rewrite sapp_assoc. done.
Qed.
Lemma puts_fine calls : forallb (forallb fine) calls = true -> gen_appends (fun st => puts st calls) (text calls).
Proof.
  induction calls as [|c calls IH]; intros H w.
  - cbn. rewrite sapp_nil. done.
  - cbn [forallb] in H. apply andb_true_iff in H as [Hc H]. cbn [puts].
    rewrite (put_fine c Hc w). cbn [rbind]. rewrite (IH H). unfold text. cbn [List.concat].
    rewrite map_app, sconcat_app, sapp_assoc. done.
Qed.

Lemma text_app a b : text (a ++ b) = text a +:+ text b.
Proof. unfold text. rewrite concat_app, map_app, sconcat_app. done. Qed.

Lemma appends_nil : gen_appends (fun st => Ok st) "".
Proof. intros w. rewrite sapp_nil. done. Qed.
Lemma appends_bind g1 s1 g2 s2 :
  gen_appends g1 s1 -> gen_appends g2 s2 -> gen_appends (fun st => let* st := g1 st in g2 st) (s1 +:+ s2).
Proof. intros H1 H2 w. rewrite H1. cbn [rbind]. rewrite H2, sapp_assoc. done. Qed.
Lemma appends_each {A} (l : list A) body (f : A -> string) :
  Forall (fun a => gen_appends (fun st => body st a) (f a)) l ->
  gen_appends (fun st => for_each st l body) (sconcat (map f l)).
Proof.
  induction 1 as [|a l Ha _ IH]; [apply appends_nil|]. cbn [map sconcat fold_right for_each].
  exact (appends_bind _ _ _ _ Ha IH).
Qed.
Lemma appends_ext g g' s : (forall st, g st = g' st) -> gen_appends g s -> gen_appends g' s.
Proof. intros E H w. rewrite <- E. apply H. Qed.

(** ** Names *)
Fixpoint has_upper (s : string) : bool :=
  match s with EmptyString => false | String c s => is_upper c || has_upper s end.
Lemma has_upper_app a b : has_upper (a +:+ b) = has_upper a || has_upper b.
Proof. induction a as [|c a IH]; [done|]. cbn. rewrite IH, orb_assoc. done. Qed.
Lemma upper_not_keyword s : has_upper s = true -> is_keyword s = false.
Proof.
  intros H. unfold is_keyword. destruct (existsb _ _) eqn:E; [|done].
  apply existsb_exists in E as (k & Hk & E). apply String.eqb_eq in E. subst k.
  assert (forallb (fun k => negb (has_upper k)) keywords = true) as HK by reflexivity.
  rewrite forallb_forall in HK. apply HK in Hk. rewrite H in Hk. done.
Qed.

Lemma identifier_chars s : identifier s -> name_chars s = true.
Proof. intros [H _]. destruct s as [|c s]; [done|]. destruct H as [Hc Hs]. cbn. rewrite Hc, Hs. done. Qed.

(** A literal prefix that begins with a letter and has an upper-case letter. *)
Lemma identifier_prefix p s :
  match p with EmptyString => False | String c p => letter c = true /\ name_chars p = true end ->
  has_upper p = true -> name_chars s = true -> identifier (p +:+ s).
Proof.
  intros Hp Hu Hs. split.
  - destruct p as [|c p]; [done|]. destruct Hp as [Hc Hp]. change (String c p +:+ s) with (String c (p +:+ s)).
    split; [done|]. rewrite name_chars_app, Hp, Hs. done.
  - apply upper_not_keyword. rewrite has_upper_app, Hu. done.
Qed.
Lemma identifier_suffix s p :
  match s with EmptyString => False | String c s => letter c = true /\ name_chars s = true end ->
  name_chars p = true -> has_upper p = true -> identifier (s +:+ p).
Proof.
  intros Hs Hp Hu. split.
  - destruct s as [|c s]; [done|]. destruct Hs as [Hc Hs]. change (String c s +:+ p) with (String c (s +:+ p)).
    split; [done|]. rewrite name_chars_app, Hs, Hp. done.
  - apply upper_not_keyword. rewrite has_upper_app, Hu, orb_true_r. done.
Qed.

Lemma byte_code c : byte_of c = code c. Proof. done. Qed.
Lemma letter_is c : is_letter c = true -> letter c = true.
Proof. unfold is_letter, is_upper, is_lower, letter. rewrite !byte_code. lia. Qed.
Lemma digit_is c : is_digit c = true -> decimal c = true.
Proof. unfold is_digit, decimal. rewrite !byte_code. lia. Qed.
Lemma to_title_letter c : is_letter c = true -> is_upper (to_title c) = true /\ is_letter (to_title c) = true.
Proof.
  intros H. assert (HU : is_upper (to_title c) = true); [|split; [done|unfold is_letter; rewrite HU; done]].
  unfold to_title. unfold is_letter in H. destruct (is_lower c) eqn:El; [|rewrite orb_false_r in H; done].
  unfold is_lower, is_upper, byte_of in *.
  pose proof (nat_ascii_bounded c). rewrite nat_ascii_embedding by lia. lia.
Qed.
Lemma to_title_digit c : is_digit c = true -> to_title c = c.
Proof. intros H. unfold to_title. unfold is_digit, is_lower in *. replace (_ && _) with false by lia. done. Qed.

Lemma go_case_chars l : forall nx, name_chars (string_of_list_ascii (go_case is_letter is_digit to_title nx l)) = true.
Proof.
  induction l as [|c l IH]; intros nx; [done|]. cbn [go_case].
  destruct (is_letter c) eqn:El; [|destruct (is_digit c) eqn:Ed]; cbn [negb andb]; [| |apply IH].
  - cbn [string_of_list_ascii name_chars]. rewrite IH, andb_true_r.
    destruct nx; [apply to_title_letter in El as [_ El]|]; apply letter_is in El; rewrite El; done.
  - cbn [string_of_list_ascii name_chars]. rewrite IH, andb_true_r.
    rewrite (to_title_digit c Ed). apply digit_is in Ed. destruct nx; rewrite Ed, orb_true_r; done.
Qed.
Lemma goCase_chars s : name_chars (toGoCase s) = true.
Proof. apply go_case_chars. Qed.

Lemma goCase_head s : proto_name s ->
  exists c r, toGoCase s = String c r /\ is_upper c = true.
Proof.
  destruct s as [|c s]; [done|]. intros (Hl & Hc & Hs). unfold toGoCase. cbn [list_ascii_of_string go_case].
  assert (El : is_letter c = true).
  { unfold letter, is_letter, is_upper, is_lower in *. rewrite !byte_code. assert (code c <> 95); [|lia].
    intros E. apply Hc. unfold code in E. rewrite <- (ascii_nat_embedding c).
    replace (nat_of_ascii c) with 95%nat by lia. done. }
  rewrite El. cbn [negb andb string_of_list_ascii]. do 2 eexists. split; [done|]. apply to_title_letter. done.
Qed.
Lemma goCase_identifier s : proto_name s -> identifier (toGoCase s).
Proof.
  intros H. destruct (goCase_head s H) as (c & r & E & Hu). rewrite E. pose proof (goCase_chars s) as Hc.
  rewrite E in Hc. cbn [name_chars] in Hc. apply andb_true_iff in Hc as [_ Hc]. split.
  - split; [|done]. apply letter_is. unfold is_letter. rewrite Hu. done.
  - apply upper_not_keyword. cbn. rewrite Hu. done.
Qed.

(** ** Type names *)
Lemma no_dot_after t : no_dot t -> after_last_dot t = None.
Proof.
  induction t as [|c t IH]; [done|]. intros [Hc Ht]. cbn. rewrite (IH Ht).
  destruct (Ascii.eqb_spec c "."); done.
Qed.
Lemma last_component_fun s t : last_component s t -> fieldToGoTypeMessage s = t.
Proof.
  intros [Ht [->|[p ->]]]; unfold fieldToGoTypeMessage.
  - rewrite no_dot_after by done. done.
  - assert (E : after_last_dot (p +:+ "." +:+ t) = Some t).
    { induction p as [|c p IH].
      - cbn. rewrite no_dot_after by done. done.
      - change (String c p +:+ "." +:+ t) with (String c (p +:+ "." +:+ t)). cbn [after_last_dot]. rewrite IH. done. }
    rewrite E. done.
Qed.

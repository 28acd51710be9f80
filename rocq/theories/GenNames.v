(** * The names the generator computes *)
From Verif Require Import Gen GoLang GenLex GenSpec GenText.
From Coq Require Import ZifyBool.

Lemma split_cons c s : exists w ws, split c s = w :: ws.
Proof.
  induction s as [|a s (w & ws & E)]; [eexists _, _; done|]. cbn. destruct (Ascii.eqb a c); [eexists _, _; done|].
  rewrite E. eexists _, _. done.
Qed.

Lemma capital_title c : capital c = to_title c.
Proof. done. Qed.

Lemma goCase_words s : name_chars s = true ->
  string_of_list_ascii (go_case is_letter is_digit to_title true (list_ascii_of_string s)) = sconcat (map capitalise (split "_" s)) /\
  string_of_list_ascii (go_case is_letter is_digit to_title false (list_ascii_of_string s)) =
    match split "_" s with w :: ws => w +:+ sconcat (map capitalise ws) | [] => "" end.
Proof.
  induction s as [|c s IH]; [done|]. intros H. cbn [name_chars] in H. apply andb_true_iff in H as [Hc Hs].
  destruct (IH Hs) as [IH1 IH2]. clear IH. cbn [list_ascii_of_string go_case split].
  destruct (Ascii.eqb_spec c "_") as [->|Hne].
  - change (negb (is_letter "_") && negb (is_digit "_")) with true. cbn match. rewrite IH1. done.
  - assert (Hk : negb (is_letter c) && negb (is_digit c) = false).
    { assert (code c <> 95). { intros E. apply Hne. unfold code in E. rewrite <- (ascii_nat_embedding c).
        replace (nat_of_ascii c) with 95%nat by lia. done. }
      unfold is_letter, is_upper, is_lower, is_digit, letter, decimal in *. rewrite !byte_code. lia. }
    rewrite Hk. destruct (split_cons "_" s) as (w & ws & E). rewrite E in *.
    cbn [string_of_list_ascii map capitalise]. rewrite IH2. done.
Qed.
Lemma goCase_camel s : name_chars s = true -> toGoCase s = camel s.
Proof. apply goCase_words. Qed.

Lemma proto_name_chars s : proto_name s -> name_chars s = true.
Proof. destruct s as [|c s]; [done|]. intros (H1 & _ & H2). cbn. rewrite H1, H2. done. Qed.

Lemma after_split s :
  match split "." s with
  | [] => False
  | [w] => after_last_dot s = None /\ w = s
  | _ :: ws => after_last_dot s = Some (List.last ws "")
  end.
Proof.
  induction s as [|c s IH]; [done|]. cbn [split after_last_dot].
  destruct (split_cons "." s) as (w & ws & E). rewrite E in IH |- *.
  destruct (Ascii.eqb_spec c ".") as [->|Hne].
  - destruct ws as [|w' ws].
    + destruct IH as [-> ->]. done.
    + rewrite IH. done.
  - destruct ws as [|w' ws].
    + destruct IH as [-> ->]. done.
    + rewrite IH. done.
Qed.
Lemma base_name_fun s : fieldToGoTypeMessage s = base_name s.
Proof.
  unfold fieldToGoTypeMessage, base_name. pose proof (after_split s) as H.
  destruct (split "." s) as [|w [|w' ws]]; [done| |].
  - destruct H as [-> ->]. done.
  - rewrite H. done.
Qed.
Lemma last_component_base s t : last_component s t -> base_name s = t.
Proof. intros H. rewrite <- base_name_fun. apply last_component_fun. done. Qed.
Lemma last_component_split s : last_component s (base_name s).
Proof.
  rewrite <- base_name_fun. unfold last_component, fieldToGoTypeMessage. split.
  - destruct (after_last_dot s) as [r|] eqn:E; cbn [default].
    + revert r E. induction s as [|c s IH]; intros r E; [done|]. cbn in E. destruct (after_last_dot s) as [r'|] eqn:E'.
      * injection E as <-. apply IH. done.
      * destruct (Ascii.eqb c "."); [|done]. injection E as <-. clear -E'. induction s as [|c s IH]; [exact I|]. cbn in E'.
        destruct (after_last_dot s); [done|]. destruct (Ascii.eqb_spec c "."%char); [done|]. split; [done|]. apply IH. done.
    + induction s as [|c s IH]; [exact I|]. cbn in E. destruct (after_last_dot s); [done|]. destruct (Ascii.eqb_spec c "."%char); [done|].
      split; [done|]. apply IH. done.
  - destruct (after_last_dot s) as [r|] eqn:E; [|auto]. cbn [default]. right. revert r E.
    induction s as [|c s IH]; intros r E; [done|]. cbn in E. destruct (after_last_dot s) as [r'|] eqn:E'.
    + injection E as <-. destruct (IH r' eq_refl) as [p ->]. exists (String c p). done.
    + destruct (Ascii.eqb_spec c "."%char) as [->|]; [|done]. injection E as <-. exists "". done.
Qed.

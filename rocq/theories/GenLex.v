(** * Lexing text made of literal pieces, names and numbers *)
From Verif Require Import Gen GoLang.
From Coq Require Import ZifyBool.
#[global] Arguments String.append !_ _ : simpl nomatch.

Lemma sapp_assoc (a b c : string) : (a +:+ b) +:+ c = a +:+ (b +:+ c).
Proof. induction a; cbn; congruence. Qed.
Lemma sapp_nil (a : string) : a +:+ "" = a.
Proof. induction a; cbn; congruence. Qed.

Definition pre (ts : list token) (r : option (list token)) : option (list token) :=
  match r with Some l => Some (ts ++ l) | None => None end.
Lemma pre_app a b r : pre (a ++ b) r = pre a (pre b r).
Proof. destruct r; cbn; [rewrite app_assoc|]; done. Qed.
Lemma emit_pre t r : emit t r = pre [t] r.
Proof. destruct r; done. Qed.
Lemma pre_nil r : pre [] r = r.
Proof. destruct r; done. Qed.

(** Whatever follows, lexing [s] in state [st] gives the tokens [ts] and leads to
    state [st']. *)
Definition lexes (st : lstate) (se : bool) (s : string) (ts : list token) (st' : lstate) (se' : bool) : Prop :=
  forall rest, lex st se (s +:+ rest) = pre ts (lex st' se' rest).

Lemma lexes_nil st se : lexes st se "" [] st se.
Proof. intros rest. rewrite pre_nil. done. Qed.
Lemma lexes_app st se a ts1 st1 se1 b ts2 st2 se2 :
  lexes st se a ts1 st1 se1 -> lexes st1 se1 b ts2 st2 se2 -> lexes st se (a +:+ b) (ts1 ++ ts2) st2 se2.
Proof. intros H1 H2 rest. rewrite sapp_assoc, H1, H2, pre_app. done. Qed.
Lemma lexes_cons st se p ts1 st1 se1 ps ts2 st2 se2 :
  lexes st se p ts1 st1 se1 -> lexes st1 se1 (sconcat ps) ts2 st2 se2 ->
  lexes st se (sconcat (p :: ps)) (ts1 ++ ts2) st2 se2.
Proof. apply lexes_app. Qed.

(** One character from [L0]. *)
Definition start (c : ascii) (se : bool) : option (list token * lstate * bool) :=
  if (code c =? 32) || (code c =? 9) || (code c =? 13) then Some ([], L0, se)
  else if code c =? 10 then (if se then Some ([Semi], L0, false) else Some ([], L0, false))
  else if letter c then Some ([], LId (String c ""), se)
  else if code c =? 48 then Some ([], LZero, se)
  else if decimal c then Some ([], LNum (code c - 48), se)
  else if code c =? 34 then Some ([], LStr "", se)
  else if code c =? 96 then Some ([], LRaw "", se)
  else if code c =? 47 then Some ([], LSlash, se)
  else if code c =? 58 then Some ([], LColon, se)
  else if code c =? 61 then Some ([], LEq, se)
  else match punct c with Some t => Some ([t], L0, ends_line t) | None => None end.
Definition emitting (t : token) (r : option (list token * lstate * bool)) :=
  match r with Some (ts, st, se) => Some (t :: ts, st, se) | None => None end.
Definition step (st : lstate) (se : bool) (c : ascii) : option (list token * lstate * bool) :=
  match st with
  | L0 => start c se
  | LId w => if letter c || decimal c then Some ([], LId (snoc w c), se) else emitting (word w) (start c (ends_line (word w)))
  | LNum z => if decimal c then Some ([], LNum (10 * z + (code c - 48)), se) else if letter c then None else emitting (TNum z) (start c true)
  | LZero => if decimal c || letter c then None else emitting (TNum 0) (start c true)
  | LStr w => if code c =? 34 then Some ([TLit w], L0, true) else if (code c =? 92) || (code c =? 10) then None else Some ([], LStr (snoc w c), se)
  | LRaw w => if code c =? 96 then Some ([TLit w], L0, true) else Some ([], LRaw (snoc w c), se)
  | LSlash => if code c =? 47 then Some ([], LComment, se) else None
  | LComment => if code c =? 10 then start c se else Some ([], LComment, se)
  | LColon => if code c =? 61 then Some ([Define], L0, false) else emitting Colon (start c false)
  | LEq => if code c =? 61 then Some ([EqEq], L0, false) else emitting Eq (start c false)
  end.
Fixpoint run (st : lstate) (se : bool) (s : string) : option (list token * lstate * bool) :=
  match s with
  | EmptyString => Some ([], st, se)
  | String c s =>
    match step st se c with
    | Some (ts, st, se) => match run st se s with Some (ts', st, se) => Some (ts ++ ts', st, se) | None => None end
    | None => None
    end
  end.

Definition after (r : option (list token * lstate * bool)) (rest : string) : option (list token) :=
  match r with Some (ts, st, se) => pre ts (lex st se rest) | None => None end.

Lemma lex_step st se c rest : lex st se (String c rest) = after (step st se c) rest.
Proof.
  assert (Hs : forall semi,
    (if (code c =? 32) || (code c =? 9) || (code c =? 13) then lex L0 semi rest
      else if code c =? 10 then (if semi then emit Semi (lex L0 false rest) else lex L0 false rest)
      else if letter c then lex (LId (String c "")) semi rest
      else if code c =? 48 then lex LZero semi rest
      else if decimal c then lex (LNum (code c - 48)) semi rest
      else if code c =? 34 then lex (LStr "") semi rest
      else if code c =? 96 then lex (LRaw "") semi rest
      else if code c =? 47 then lex LSlash semi rest
      else if code c =? 58 then lex LColon semi rest
      else if code c =? 61 then lex LEq semi rest
      else match punct c with
           | Some t => emit t (lex L0 (ends_line t) rest)
           | None => None
           end) = after (start c semi) rest).
  { intros semi. unfold start.
    repeat match goal with |- context [if ?b then _ else _] => destruct b end; cbn [after]; rewrite ?pre_nil, ?emit_pre; try done.
    destruct (punct c); cbn [after]; rewrite ?emit_pre; done. }
  assert (He : forall t r, emit t (after r rest) = after (emitting t r) rest).
  { intros t [[[ts st'] se']|]; [|done]. cbn [emitting after]. rewrite emit_pre, <- pre_app. done. }
  destruct st; cbn [lex step]; cbv zeta; rewrite ?Hs, ?He;
    repeat match goal with |- context [if ?b then _ else _] => destruct b end; cbn [after]; rewrite ?pre_nil, ?emit_pre; done.
Qed.

Lemma lexes_run st se s ts st' se' : run st se s = Some (ts, st', se') -> lexes st se s ts st' se'.
Proof.
  revert st se ts. induction s as [|c s IH]; intros st se ts H rest; cbn [run] in H.
  - injection H as <- <- <-. rewrite pre_nil. done.
  - change (String c s +:+ rest) with (String c (s +:+ rest)). rewrite lex_step.
    destruct (step st se c) as [[[ts1 st1] se1]|]; [|done]. cbn [after].
    destruct (run st1 se1 s) as [[[ts2 st2] se2]|] eqn:E; [|done]. injection H as <- <- <-.
    rewrite (IH _ _ _ E), pre_app. done.
Qed.

(** ** Names *)
Lemma word_ident s : identifier s -> word s = TId s.
Proof. intros [_ H]. unfold word. rewrite H. done. Qed.

Lemma name_chars_app a b : name_chars (a +:+ b) = name_chars a && name_chars b.
Proof. induction a as [|c a IH]; [done|]. cbn. rewrite IH, andb_assoc. done. Qed.

Lemma lexes_more a se s : name_chars s = true -> lexes (LId a) se s [] (LId (a +:+ s)) se.
Proof.
  revert a. induction s as [|c s IH]; intros a H rest.
  - rewrite sapp_nil. apply lexes_nil.
  - cbn [name_chars] in H. apply andb_true_iff in H as [Hc Hs].
    change (String c s +:+ rest) with (String c (s +:+ rest)). rewrite lex_step. cbn [step]. rewrite Hc. cbn [after].
    rewrite pre_nil, (IH (snoc a c) Hs). unfold snoc. rewrite sapp_assoc. done.
Qed.

Lemma letter_start c se : letter c = true -> start c se = Some ([], LId (String c ""), se).
Proof.
  intros H. unfold start. unfold letter in *.
  replace ((code c =? 32) || (code c =? 9) || (code c =? 13)) with false by lia.
  replace (code c =? 10) with false by lia. rewrite H. done.
Qed.
Lemma lexes_name se s : identifier s -> lexes L0 se s [] (LId s) se.
Proof.
  intros [Hs _]. destruct s as [|c s]; [done|]. destruct Hs as [Hc Hs]. intros rest.
  change (String c s +:+ rest) with (String c (s +:+ rest)). rewrite lex_step. cbn [step]. rewrite letter_start by done.
  cbn [after]. rewrite pre_nil. rewrite (lexes_more (String c "") se s Hs). done.
Qed.

Lemma lexes_after_id w se c s ts st' se' :
  identifier w -> letter c || decimal c = false -> run L0 true (String c s) = Some (ts, st', se') ->
  lexes (LId w) se (String c s) (TId w :: ts) st' se'.
Proof.
  intros Hw Hc Hr. apply lexes_run. cbn [run] in Hr. cbn [run step]. rewrite Hc, (word_ident w Hw).
  cbn [ends_line]. change (start c true) with (step L0 true c). destruct (step L0 true c) as [[[ts1 st1] se1]|]; [|done].
  cbn [emitting]. destruct (run st1 se1 s) as [[[ts2 st2] se2]|]; [|done]. injection Hr as <- <- <-. done.
Qed.

(** ** Numbers *)
Definition num_state (n : Z) : lstate := if n =? 0 then LZero else LNum n.

Lemma code_digit d : 0 <= d < 10 -> code (digit d) = 48 + d.
Proof.
  intros Hd. unfold code, digit. rewrite nat_ascii_embedding by lia. lia.
Qed.
Lemma step_digit z se d : 0 <= d < 10 -> step (LNum z) se (digit d) = Some ([], LNum (10 * z + d), se).
Proof.
  intros Hd. cbn [step]. unfold decimal. rewrite code_digit by done.
  replace ((48 <=? 48 + d) && (48 + d <=? 57)) with true by lia. repeat f_equal. lia.
Qed.
Lemma step_digit0 se d : 0 <= d < 10 -> step L0 se (digit d) = Some ([], num_state d, se).
Proof.
  intros Hd. cbn [step]. unfold start, letter, decimal. rewrite code_digit by done.
  replace ((48 + d =? 32) || (48 + d =? 9) || (48 + d =? 13)) with false by lia.
  replace (48 + d =? 10) with false by lia.
  replace ((65 <=? 48 + d) && (48 + d <=? 90) || (97 <=? 48 + d) && (48 + d <=? 122) || (48 + d =? 95)) with false by lia.
  unfold num_state. destruct (Z.eqb_spec d 0).
  - subst. done.
  - replace (48 + d =? 48) with false by lia. replace ((48 <=? 48 + d) && (48 + d <=? 57)) with true by lia.
    repeat f_equal. lia.
Qed.

(** The digits are put in front of [acc]. *)
Lemma utoa_aux_app fuel n acc : utoa_aux fuel n acc = utoa_aux fuel n "" +:+ acc.
Proof.
  revert n acc. induction fuel as [|fuel IH]; intros n acc; cbn [utoa_aux]; [done|].
  destruct (n / 10 =? 0); [done|]. rewrite IH. rewrite (IH _ (String _ "")), sapp_assoc. done.
Qed.

Lemma lexes_utoa_aux fuel : forall n se, 0 < n -> n < 2 ^ Z.of_nat fuel -> lexes L0 se (utoa_aux fuel n "") [] (LNum n) se.
Proof.
  induction fuel as [|fuel IH]; intros n se Hn Hf.
  - change (2 ^ Z.of_nat 0) with 1 in Hf. lia.
  - cbn [utoa_aux]. rewrite Nat2Z.inj_succ, Z.pow_succ_r in Hf by lia.
    pose proof (Z.div_mod n 10 ltac:(lia)) as Hdm. pose proof (Z.mod_pos_bound n 10 ltac:(lia)) as Hm.
    destruct (Z.eqb_spec (n / 10) 0) as [H0|H0].
    + assert (n mod 10 = n) by lia. intros rest. cbn [String.append]. rewrite lex_step, step_digit0 by done. cbn [after].
      unfold num_state. rewrite H. replace (n =? 0) with false by lia. done.
    + rewrite utoa_aux_app. change (@nil token) with (@nil token ++ []).
      eapply lexes_app; [apply IH|].
      * pose proof (Z.div_pos n 10). lia.
      * apply Z.div_lt_upper_bound; [lia|]. pose proof (Z.pow_pos_nonneg 2 (Z.of_nat fuel)). lia.
      * intros rest. cbn [String.append]. rewrite lex_step, step_digit by done. cbn [after].
        replace (10 * (n / 10) + n mod 10) with n by lia. done.
Qed.

Lemma lexes_num se n : 0 <= n -> lexes L0 se (itoa n) [] (num_state n) se.
Proof.
  intros Hn. unfold itoa, utoa. replace (n <? 0) with false by lia. unfold num_state.
  destruct (Z.eqb_spec n 0) as [->|Hne].
  - apply lexes_run. reflexivity.
  - apply lexes_utoa_aux; [lia|].
    rewrite Nat2Z.inj_succ, Z2Nat.id by apply Z.log2_nonneg. apply Z.log2_spec. lia.
Qed.

Lemma lexes_after_num n se c s ts st' se' :
  letter c || decimal c = false -> run L0 true (String c s) = Some (ts, st', se') ->
  lexes (num_state n) se (String c s) (TNum n :: ts) st' se'.
Proof.
  intros Hc Hr. apply orb_false_iff in Hc as [Hl Hd]. apply lexes_run. cbn [run] in Hr. cbn [run].
  assert (Hst : step (num_state n) se c = emitting (TNum n) (start c true)).
  { unfold num_state. destruct (Z.eqb_spec n 0); subst; cbn [step]; rewrite Hd, Hl; done. }
  rewrite Hst. change (start c true) with (step L0 true c). destruct (step L0 true c) as [[[ts1 st1] se1]|]; [|done].
  cbn [emitting]. destruct (run st1 se1 s) as [[[ts2 st2] se2]|]; [|done]. injection Hr as <- <- <-. done.
Qed.

(** * Goroutines that keep to a rule that can be read off their program *)
From Verif Require Import GoBase Heap HeapFacts Recover RecoverFacts SpecShare.
From Verif Require Import Access AccessFacts AccessApi AccessMem AccessObj AccessSet AccessRun AccessFork SpecGo.

Section inv.
Context (al : kind -> gset nat -> nat) (RO : gset loc) (R0 : regs) (rt : rights) (more : nat) (grow : Z -> Z -> Z).
Notation n := (length (objs R0)).
Notation m := (length (held R0)).
Notation US := (use_struct rt).
Notation UH := (use_slice rt).
Notation writable := (writable RO).
Notation holds := (holds al RO R0 US UH).
Notation newer := (newer RO R0).
Notation writes := (writes m rt).
Notation follows := (follows n m rt).

Definition clean_obj (i : nat) (h : hmsg) : Prop :=
  (put_struct rt i -> forall l, h_m h = Some l -> Table l ∉ RO) /\ (put_buffer rt i -> writable (h_buf h)).
Definition clean (P : pst) : Prop :=
  (n <= length (p_objs P))%nat /\ (m <= length (p_held P))%nat /\
  (forall i mt h, p_objs P !! i = Some (mt, h) -> usable R0 US i -> clean_obj i h) /\
  (forall k s, p_held P !! k = Some s -> visible R0 UH k -> writes k -> writable s).
Context (Hparts : forall i, US i -> put_struct rt i -> free_struct RO R0 i).

Lemma follows_allowed P a : clean P -> follows a -> allowed RO R0 US UH P a.
Proof.
  intros (_ & _ & C1 & C2).
  assert (HT : forall i, usable R0 US i -> put_struct rt i -> free_table RO P i) by (intros i U W mt h l E; exact (proj1 (C1 _ _ _ E U) W l)).
  assert (HB : forall i, usable R0 US i -> put_buffer rt i -> free_buffer RO P i) by (intros i U W mt h E; exact (proj2 (C1 _ _ _ E U) W)).
  assert (HF : forall i, usable R0 US i -> put_struct rt i -> free_struct RO R0 i).
  { intros i [U|U] W; [auto|]. intros mt o E. apply lookup_lt_Some in E. lia. }
  destruct a; cbn [allowed SpecGo.follows]; auto; unfold uses, sees, usable, visible in *; try tauto.
  - intros [V W]. split; [exact V|]. intros s Hs. eauto.
  - intros [V W]. split; [exact V|]. intros s Hs. eauto.
  - intros (U & W1 & W2). split_and!; auto.
  - intros (U & V & W1 & W2). split_and!; auto.
  - intros (U & V & W1 & W2). split_and!; auto.
  - intros (U & V & W1 & W2). split_and!; auto.
  - intros (U & V & W1 & W2). split_and!; auto.
Qed.

Lemma clean_hold P σ s : clean P -> (put_new rt -> writable s) -> clean (mkPst σ (p_objs P) (p_held P ++ [s])).
Proof.
  intros (L1 & L2 & C1 & C2) Hs. split_and!; cbn [p_objs p_held]; [exact L1|rewrite app_length; lia|exact C1|].
  intros k s2 E V W. apply lookup_app_Some in E as [E|[Hk E]]; [eauto|]. apply list_lookup_singleton_Some in E as [_ <-]. destruct W as [[W _]|[_ W]]; [lia|auto].
Qed.
Lemma clean_new P mt h : clean P -> clean_obj (length (p_objs P)) h -> clean (mkPst (p_mem P) (p_objs P ++ [(mt, h)]) (p_held P)).
Proof.
  intros (L1 & L2 & C1 & C2) Hs. split_and!; cbn [p_objs p_held]; [rewrite app_length; lia|exact L2| |exact C2].
  intros i mt2 h2 E U. apply lookup_app_Some in E as [E|[Hk E]]; [eauto|]. apply list_lookup_singleton_Some in E as [Ei [= <- <-]].
  replace i with (length (p_objs P)) by lia. exact Hs.
Qed.
Lemma clean_mem P σ : clean P -> clean (mkPst σ (p_objs P) (p_held P)).
Proof. auto. Qed.
Lemma clean_update P i mt h σ : clean P -> (usable R0 US i -> clean_obj i h) -> clean (mkPst σ (<[i := (mt, h)]> (p_objs P)) (p_held P)).
Proof.
  intros (L1 & L2 & C1 & C2) Hs. split_and!; cbn [p_objs p_held]; [rewrite insert_length; exact L1|exact L2| |exact C2].
  intros j mt2 h2 E U. apply list_lookup_insert_Some in E as [(-> & [= -> ->] & _)|[_ E]]; eauto.
Qed.

(** From what a call does to what it leaves. *)
Lemma wp_get_out {A} T (p : prog A) Q (F : Prop) : wp al RO T p Q -> (forall r T', Q r T' -> F) -> F.
Proof. unfold wp. destruct (run al RO T p) as [[r T']|]; [|intros []]. eauto. Qed.

Lemma now_start' b T R P i : holds T R P -> newer R -> usable R0 US i -> clean P -> put_struct rt i -> (b = true -> put_buffer rt i) ->
  match p_objs P !! i with Some (mt, h) => exists o, objs R !! i = Some (mt, o) /\ now al RO T (p_mem P) b (alen mt) o T (p_mem P) h | None => True end.
Proof.
  intros H Hn U C W1 W2. pose proof (holds_obj _ _ _ _ _ T R P i H U) as HO. destruct (p_objs P !! i) as [[mt h]|] eqn:Ej; [|exact I].
  destruct (objs R !! i) as [[mt' o]|] eqn:Ei; [|contradiction]. destruct HO as [-> O]. exists o. split; [reflexivity|].
  pose proof C as (_ & _ & C1 & _). destruct (C1 _ _ _ Ej U) as [Cl1 Cl2].
  eapply now_start; try eassumption.
  - destruct U as [U|U]; [auto|]. intros mt2 o2 E. apply lookup_lt_Some in E. lia.
  - intros mt2 h2 l E. rewrite Ej in E. injection E as <- <-. auto.
  - auto.
Qed.
Lemma clean_wrote T R P i mt h o (x : res unit * (mem * hmsg)) p : clean P -> put_buffer rt i ->
  wp al RO T p (post al RO T (p_mem P) true (alen mt) o x) -> p_objs P !! i = Some (mt, h) -> objs R !! i = Some (mt, o) ->
  clean (mkPst x.2.1 (<[i := (mt, x.2.2)]> (p_objs P)) (p_held P)).
Proof.
  intros C W HW _ _. eapply wp_get_out; [exact HW|]. intros r T' [_ (_ & _ & M & Wr & _)]. apply clean_update; [exact C|]. intros _. split.
  - intros _ l Hl. exact (proj2 M _ Hl).
  - auto.
Qed.

Lemma range_sub σ s lo hi d : swf σ s -> h_range s lo hi = Ok d -> sub_window d s.
Proof. intros Hs E. eapply h_range_sub; eassumption. Qed.
Lemma slice_at_sub T σ k o h f d : own T σ k o h -> slice_at σ h f = Ok (Some d) -> sub_window d (h_buf h).
Proof.
  intros (_ & K & _). unfold slice_at, with_offset. destruct (offsets_get _ _) as [[x [|]]| | |]; cbn [rbind]; try discriminate.
  destruct (h_from (h_buf h) x) as [b| | |]; cbn [rbind]; try discriminate. destruct (uvarint _). destruct (h_range (h_buf h) _ _) as [d2| | |] eqn:E; cbn [rbind]; try discriminate.
  intros [= <-]. eapply knows_range; eassumption.
Qed.
Lemma writable_default T σ k o h f s : own T σ k o h -> slice_at σ h f = Ok s -> writable (h_buf h) -> writable (default None s).
Proof. intros O E W. destruct s as [d|]; [eapply writable_sub; [exact W|eapply slice_at_sub; eassumption]|apply writable_none]. Qed.
Lemma get_writable ty T σ k o h f : own T σ k o h -> writable (h_buf h) -> match h_get ty σ h f with Ok (HStr s) | Ok (HBy s) => writable s | _ => True end.
Proof.
  intros O W. destruct ty; cbn [h_get]; unfold varint_at, fixed_at, with_offset;
    try (destruct (offsets_get _ _) as [[x [|]]| | |]; cbn [rbind]; try exact I; destruct (h_from _ _); cbn [rbind]; exact I);
    try (destruct (offsets_get _ _) as [[x [|]]| | |]; cbn [rbind]; try exact I; destruct (h_range _ _ _); cbn [rbind]; try exact I; destruct (le_uint32 _); exact I);
    try (destruct (offsets_get _ _) as [[x [|]]| | |]; cbn [rbind]; try exact I; destruct (h_range _ _ _); cbn [rbind]; try exact I; destruct (le_uint64 _); exact I);
    destruct (slice_at σ h f) as [s| | |] eqn:E; cbn [rbind]; try exact I; eapply writable_default; eassumption.
Qed.
Lemma writable_cap T σ s : knows T σ s -> writable s -> writable (option_map (fun s => mkSl (sarr s) (soff s) (slen s) (slen s)) s).
Proof.
  intros K W. eapply writable_sub; [exact W|]. destruct s as [s|]; [|intros a j []]. destruct K as [(l & E & Hs) _]. intros a j. cbn. lia.
Qed.
Lemma find_sub T σ it f rest msg : knows T σ it -> h_find σ it f = Ok (rest, msg) -> sub_window rest it /\ sub_window msg it.
Proof.
  intros K. unfold h_find. destruct it as [it|]; [|intros [= <- <-]; split; intros a j []].
  destruct (uvarint _) as [len sz]. destruct (h_range _ _ _) as [mm| | |] eqn:E; cbn [rbind]; try discriminate.
  destruct (find_pos _ _ _ _) as [[i|]| | |]; cbn [rbind]; try discriminate.
  - destruct (h_from _ i) as [r| | |] eqn:E2; cbn [rbind]; try discriminate. intros [= <- <-]. split; [eapply knows_from; eassumption|eapply knows_range; eassumption].
  - intros [= <- <-]. split; [intros a j []|eapply knows_range; eassumption].
Qed.

Lemma clean_step T R P a : holds T R P -> newer R -> clean P -> follows a ->
  match Recover.rexec (lift_grow grow) P a with (Ok _, P') | (Panic, P') => clean P' | _ => True end.
Proof.
  intros H Hn C Hf. pose proof C as (L1 & L2 & C1 & C2). pose proof H as (R1 & _).
  destruct a as [k0 reps|i|bs spare|k j b|k x|k lo hi|k|i f ty v|i f k|i f k|i f ty|i|i k|i k|i f|k f]; cbn [Recover.rexec pexec]; cbn [SpecGo.follows] in Hf.
  - cbn. apply clean_new; [exact C|]. split; [intros _ l [=]|intros _; apply writable_none].
  - destruct Hf as [U Hf]. destruct (p_objs P !! i) as [[mt h]|] eqn:Ej; cbn [of_opt rbind]; [|exact C]. apply clean_new; [exact C|].
    destruct (C1 _ _ _ Ej U) as [A B]. destruct (Hf (length (p_objs P)) L1) as [F1 F2]. split; auto.
  - destruct (alloc (p_mem P) bs spare) as [σ s] eqn:E. unfold keep. apply clean_hold; [exact C|]. intros _ a j Hw HR.
    pose proof (alloc_fresh (p_mem P)) as Hfr. unfold alloc in E. injection E as <- <-. cbn in Hw. destruct Hw as [-> _].
    apply not_elem_of_dom in Hfr. rewrite <- (rep_arr _ _ _ _ R1) in Hfr at 2. apply Hfr. eapply elem_ids_dom; [exact (rep_ro _ _ _ _ R1 _ HR)|reflexivity].
  - destruct (p_held P !! k) as [s|]; cbn [of_opt rbind]; [|exact C]. unfold h_write. destruct s as [s|]; [|exact C]. destruct (_ && _); exact C.
  - destruct Hf as [V W]. destruct (p_held P !! k) as [s|] eqn:Ek; cbn [of_opt rbind]; [|exact C].
    destruct (holds_held _ _ _ _ _ T R P k H V) as [_ Hk]. pose proof (wp_append al RO T (p_mem P) grow s (Scratch x) R1 (Hk _ Ek) (C2 _ _ Ek V W) I) as HW. cbn [src_bytes] in HW.
    destruct (h_append _ _ _ _) as [σ s2]. unfold keep. apply clean_hold; [exact C|]. intros _. eapply wp_get_out; [exact HW|]. cbv beta. tauto.
  - destruct Hf as [V W]. destruct (p_held P !! k) as [s|] eqn:Ek; cbn [of_opt rbind]; [|exact C].
    destruct (holds_held _ _ _ _ _ T R P k H V) as [_ Hk]. destruct (h_range s lo hi) as [d| | |] eqn:E; cbn [rbind]; try exact I; [|exact C].
    unfold keep. apply clean_hold; [exact C|]. intros Hp. eapply writable_sub; [exact (C2 _ _ Ek V (W Hp))|]. eapply knows_range; [apply Hk; exact Ek|exact E].
  - destruct (p_held P !! k) as [s|]; cbn [of_opt rbind]; exact C.
  - destruct Hf as (U & W1 & W2). pose proof (now_start' true T R P i H Hn U C W1 ltac:(auto)) as N. destruct (p_objs P !! i) as [[mt h]|] eqn:Ej; [|exact C].
    destruct N as (o & Ei & N). pose proof (wp_set al RO T (p_mem P) grow ty (alen mt) o T (p_mem P) h f v N) as HW.
    pose proof (clean_wrote T R P i mt h o _ _ C W2 HW Ej Ei) as HC. destruct (r_set _ _ _ _ _ _) as [[]]; cbn [rbind fst snd] in *; try exact I; exact HC.
  - destruct Hf as (U & V & W1 & W2). pose proof (now_start' true T R P i H Hn U C W1 ltac:(auto)) as N. destruct (p_objs P !! i) as [[mt h]|] eqn:Ej; [|exact C].
    destruct (holds_held _ _ _ _ _ T R P k H V) as [_ Hk]. destruct (p_held P !! k) as [s|] eqn:Ek; [|exact C].
    destruct N as (o & Ei & N). pose proof (wp_set_view al RO T (p_mem P) grow (alen mt) o T (p_mem P) h f s N (Hk _ eq_refl)) as HW.
    pose proof (clean_wrote T R P i mt h o _ _ C W2 HW Ej Ei) as HC. destruct (r_set_view _ _ _ _ _) as [[]]; cbn [rbind fst snd] in *; try exact I; exact HC.
  - destruct Hf as (U & V & W1 & W2). pose proof (now_start' true T R P i H Hn U C W1 ltac:(auto)) as N. destruct (p_objs P !! i) as [[mt h]|] eqn:Ej; [|exact C].
    destruct (holds_held _ _ _ _ _ T R P k H V) as [_ Hk]. destruct (p_held P !! k) as [s|] eqn:Ek; [|exact C].
    destruct N as (o & Ei & N). pose proof (wp_append_bytes al RO T (p_mem P) grow (alen mt) o T (p_mem P) h f (View s) N (Hk _ eq_refl)) as HW.
    pose proof (clean_wrote T R P i mt h o _ _ C W2 HW Ej Ei) as HC. destruct (r_append_bytes _ _ _ _ _) as [[]]; cbn [rbind fst snd] in *; try exact I; exact HC.
  - destruct Hf as [U W]. pose proof (holds_obj _ _ _ _ _ T R P i H U) as HO. destruct (p_objs P !! i) as [[mt h]|] eqn:Ej; cbn [of_opt rbind]; [|exact C].
    destruct (objs R !! i) as [[mt' o]|]; [|contradiction]. destruct HO as [-> O]. pose proof (get_knows ty _ _ _ _ _ f O) as GK.
    assert (GW : put_new rt -> match h_get ty (p_mem P) h f with Ok (HStr s) | Ok (HBy s) => writable s | _ => True end).
    { intros Hp. eapply get_writable; [exact O|]. exact (proj2 (C1 _ _ _ Ej U) (W Hp)). }
    destruct (h_get ty (p_mem P) h f) as [[v|s|s]| | |]; cbn [rbind]; try exact I; try exact C; unfold keep; (apply clean_hold; [exact C|]); [|exact GW].
    intros Hp. eapply writable_cap; [exact GK|auto].
  - destruct Hf as [U W]. destruct (p_objs P !! i) as [[mt h]|] eqn:Ej; cbn [of_opt rbind]; [|exact C]. unfold keep. apply clean_hold; [exact C|]. intros Hp. exact (proj2 (C1 _ _ _ Ej U) (W Hp)).
  - destruct Hf as (U & V & W1 & W2). pose proof (now_start' false T R P i H Hn U C W1 ltac:(discriminate)) as N. destruct (p_objs P !! i) as [[mt h]|] eqn:Ej; [|exact C].
    destruct (holds_held _ _ _ _ _ T R P k H V) as [_ Hk]. destruct (p_held P !! k) as [s|] eqn:Ek; [|exact C].
    destruct N as (o & Ei & N). pose proof (wp_decode al RO T (p_mem P) more false (alen mt) o T (p_mem P) h mt s N (Hk _ eq_refl)) as HW. cbv zeta in HW.
    assert (Hb : h_buf (r_decode mt (p_mem P) h s).2.2 = s).
    { unfold r_decode. destruct (PanicState.p_Decode _ _ _) as [r [b os]]. cbn [snd]. rewrite put_buf_put. reflexivity. }
    assert (HC : (r_decode mt (p_mem P) h s).1 <> OutOfFuel -> clean (mkPst (r_decode mt (p_mem P) h s).2.1 (<[i := (mt, (r_decode mt (p_mem P) h s).2.2)]> (p_objs P)) (p_held P))).
    { intros Hne. eapply wp_get_out; [exact HW|]. cbv beta. intros r T' [-> HN]. destruct (HN Hne) as (_ & _ & M & _). apply clean_update; [exact C|]. intros _. split.
      - intros _ l Hl. exact (proj2 M _ Hl).
      - intros Wb. rewrite Hb. exact (C2 _ _ Ek V (W2 Wb)). }
    destruct (r_decode mt (p_mem P) h s) as [[e| | |] [σ' h']]; cbn [rbind fst snd] in *; try exact I; apply HC; discriminate.
  - destruct Hf as (U & V & W1 & W2). pose proof (now_start' false T R P i H Hn U C W1 ltac:(discriminate)) as N. destruct (p_objs P !! i) as [[mt h]|] eqn:Ej; cbn [of_opt rbind]; [|exact C].
    destruct (holds_held _ _ _ _ _ T R P k H V) as [_ Hk]. destruct (p_held P !! k) as [s|] eqn:Ek; cbn [of_opt rbind]; [|exact C].
    destruct N as (o & Ei & N). pose proof (wp_reset al RO T (p_mem P) false (alen mt) o T (p_mem P) h s N (Hk _ eq_refl)) as HW.
    assert (Hb : match h_reset (p_mem P) h s with Ok (σ', h') => h_buf h' = s | _ => True end).
    { unfold h_reset. destruct (0 <? hlen s); [exact I|]. pose proof (put_buf_put (p_mem P) (put_buf h s) (offsets_clear (hoffs (p_mem P) h))) as E.
      destruct (put_offs (p_mem P) (put_buf h s) (offsets_clear (hoffs (p_mem P) h))). exact E. }
    destruct (h_reset (p_mem P) h s) as [[σ' h']| | |]; cbn [rbind]; try exact I; [|exact C].
    eapply wp_get_out; [exact HW|]. cbv beta. intros r T' [_ (_ & _ & M & _)]. apply clean_update; [exact C|]. intros _. split.
    + intros _ l Hl. exact (proj2 M _ Hl).
    + intros Wb. rewrite Hb. exact (C2 _ _ Ek V (W2 Wb)).
  - destruct Hf as [U W]. pose proof (holds_obj _ _ _ _ _ T R P i H U) as HO. destruct (p_objs P !! i) as [[mt h]|] eqn:Ej; cbn [of_opt rbind]; [|exact C].
    destruct (objs R !! i) as [[mt' o]|]; [|contradiction]. destruct HO as [-> O]. destruct (h_iter (p_mem P) h f) as [s| | |] eqn:E; cbn [rbind]; try exact I; [|exact C].
    unfold keep. apply clean_hold; [exact C|]. intros Hp. pose proof (proj2 (C1 _ _ _ Ej U) (W Hp)) as Wb.
    unfold h_iter, with_offset in E. destruct (offsets_get _ _) as [[x [|]]| | |]; cbn [rbind] in E; try discriminate.
    + destruct O as (_ & K & _). eapply writable_sub; [exact Wb|]. eapply knows_from; eassumption.
    + injection E as <-. apply writable_none.
  - destruct Hf as [V W]. destruct (holds_held _ _ _ _ _ T R P k H V) as [_ Hk]. destruct (p_held P !! k) as [s|] eqn:Ek; cbn [of_opt rbind]; [|exact C].
    destruct (h_find (p_mem P) s f) as [[rest msg]| | |] eqn:E; cbn [rbind]; try exact I; [|exact C]. destruct (find_sub _ _ _ _ _ _ (Hk _ eq_refl) E) as [S1 S2].
    split_and!; cbn [p_objs p_held]; [exact L1|rewrite app_length, insert_length; lia|exact C1|].
    intros k2 s2 E2 V2 W2. apply lookup_app_Some in E2 as [E2|[Hl E2]].
    + apply list_lookup_insert_Some in E2 as [(-> & <- & _)|[_ E2]]; [|eauto]. eapply writable_sub; [exact (C2 _ _ Ek V2 W2)|exact S1].
    + apply list_lookup_singleton_Some in E2 as [_ <-]. rewrite insert_length in Hl. destruct W2 as [[W2 _]|[_ W2]]; [lia|]. eapply writable_sub; [exact (C2 _ _ Ek V (W W2))|exact S2].
Qed.

Theorem follows_keeps acts : forall T R P, holds T R P -> newer R -> clean P -> Forall follows acts -> keeps RO R0 US UH grow P acts.
Proof.
  induction acts as [|a acts IH]; intros T R P H Hn C Hf; cbn [keeps]; [exact I|]. apply Forall_cons_1 in Hf as [Ha Hf].
  pose proof (follows_allowed _ _ C Ha) as Hal. split; [exact Hal|].
  pose proof (act_ok al RO R0 US UH more grow T R P a H Hn Hal) as HW. pose proof (clean_step T R P a H Hn C Ha) as HC.
  destruct (Recover.rexec (lift_grow grow) P a) as [[o| | |] P']; try exact I; (eapply wp_get_out; [exact HW|]); unfold after; cbn [fst snd]; intros r T'.
  - intros (R' & _ & H' & Hn'). eapply IH; eassumption.
  - intros (_ & H'). eapply IH; eassumption.
Qed.
End inv.

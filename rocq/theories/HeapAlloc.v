(** * Allocation (C47) *)
From Verif Require Import Heap HeapApi Core HeapFacts HeapSet HeapExec HeapRead HeapThms.

(** Nothing was allocated between [σ] and [σ']: no new array, no new map, and no
    map has an entry it did not have. *)
Definition no_alloc (σ σ' : mem) : Prop :=
  dom (arrs σ') = dom (arrs σ) /\ dom (maps σ') = dom (maps σ) /\
  forall k m m', maps σ !! k = Some m -> maps σ' !! k = Some m' -> dom m' ⊆ dom m.

(** [t] is [s] with another length: same array, same start, same capacity. *)
Definition same_room (s t : option slice) : Prop :=
  match s, t with
  | None, None => True
  | Some s, Some t => sarr t = sarr s /\ soff t = soff s /\ scap t = scap s
  | _, _ => False
  end.
Definition hcap (s : option slice) : Z := match s with None => 0 | Some s => scap s end.

(** An existing slice with a capacity of at most 65535 bytes. *)
Definition small (σ : mem) (s : option slice) : Prop := swf σ s /\ hcap s <= 65535.
(** A reader all of whose buffers are small; a call that is given a small buffer. *)
Definition reader_small (σ : mem) (t : reader) : Prop :=
  Forall (fun h => small σ (h_buf h)) (r_structs t) /\ Forall (small σ) (r_iters t).
Definition rcall_small (σ : mem) (c : rcall) : Prop :=
  match c with RDecode _ _ s => small σ s | _ => True end.

(** ** Offsets *)
Definition shrinks (o o' : offsets) : Prop :=
  match om o, om o' with
  | None, None => True
  | Some m, Some m' => dom m' ⊆ dom m
  | _, _ => False
  end.

Lemma shrinks_refl o : shrinks o o.
Proof. unfold shrinks. destruct (om o); done. Qed.
Lemma shrinks_trans o1 o2 o3 : shrinks o1 o2 -> shrinks o2 o3 -> shrinks o1 o3.
Proof. unfold shrinks. destruct (om o1), (om o2), (om o3); try done. set_solver. Qed.

Lemma offsets_set_shrinks o f x o' : offsets_set o f x = Ok o' -> x <= 65534 -> shrinks o o'.
Proof.
  unfold offsets_set, offsetMaxInArray. intros E Hx. destruct (Z.leb_spec x 65534); [|lia].
  destruct (arr_get (oa o) f) as [p| | |]; try done. cbn [rbind] in E.
  destruct (arr_set (oa o) f (u16 x)) as [a| | |]; try done. cbn [rbind] in E. injection E as <-.
  unfold shrinks. cbn [om]. destruct (p =? offsetInMap); unfold map_delete; destruct (om o); try done.
  rewrite dom_delete. set_solver.
Qed.

Lemma clear_shrinks o : shrinks o (offsets_clear o).
Proof. unfold shrinks, offsets_clear. cbn. destruct (om o); [|done]. rewrite dom_empty. set_solver. Qed.

Lemma adjust_key_shrinks e r k o o' : adjust_map_key e r k o = Ok o' -> shrinks o o'.
Proof.
  unfold adjust_map_key. destruct (om o) as [m|] eqn:Em; [|intros [= <-]; apply shrinks_refl].
  destruct (m !! k) as [off|] eqn:Ek; [|intros [= <-]; apply shrinks_refl].
  destruct (e <? off); [|intros [= <-]; apply shrinks_refl].
  intros E. destruct (decide (u64 (off - r) <= 65534)); [eapply offsets_set_shrinks; eauto|].
  unfold offsets_set, offsetMaxInArray in E. destruct (Z.leb_spec (u64 (off - r)) 65534); [lia|].
  destruct (arr_set _ _ _) as [a| | |]; try done. cbn [rbind] in E. injection E as <-.
  unfold shrinks. cbn [om]. rewrite Em. rewrite dom_insert. apply elem_of_dom_2 in Ek. set_solver.
Qed.

Lemma adjust_keys_shrinks e r ks : forall o o', adjust_map_keys ks e r o = Ok o' -> shrinks o o'.
Proof.
  induction ks as [|k ks IH]; intros o o'; cbn [adjust_map_keys]; [intros [= <-]; apply shrinks_refl|].
  destruct (adjust_map_key e r k o) as [o1| | |] eqn:E; try done. cbn [rbind]. intros E2.
  eapply shrinks_trans; [eapply adjust_key_shrinks; eauto|eauto].
Qed.

Lemma decode_loop_shrinks fuel buf reps : zlen buf <= 65535 -> forall idx o err o',
  decode_loop fuel buf reps idx o = Ok (err, o') -> shrinks o o'.
Proof.
  intros Hl. induction fuel as [|fuel IH]; intros idx o err o'; cbn [decode_loop]; [done|].
  destruct (idx =? zlen buf); [intros [= _ <-]; apply shrinks_refl|].
  destruct (zlen buf <? idx); [intros [= _ <-]; apply shrinks_refl|].
  destruct (slice_from buf idx) as [b| | |]; try done. cbn [rbind].
  destruct (uvarint b) as [tag size].
  destruct (size =? 0); [intros [= _ <-]; apply shrinks_refl|].
  destruct (Z.leb_spec (zlen buf) (i64 (idx + size))) as [|Hi]; [intros [= _ <-]; apply shrinks_refl|].
  set (i := i64 (idx + size)) in *.
  destruct (if is_repeated reps (i64 (Z.shiftr tag 3)) then _ else _) as [o1| | |] eqn:E1; try done. cbn [rbind].
  destruct (slice_from buf i) as [b'| | |] eqn:E2; try done. cbn [rbind].
  assert (H0 : 0 <= i) by (unfold slice_from in E2; destruct (Z.leb_spec 0 i); [lia|done]).
  assert (Hs : shrinks o o1).
  { assert (Hset : offsets_set o (i64 (Z.shiftr tag 3)) (u64 i) = Ok o1 -> shrinks o o1).
    { intros E. eapply offsets_set_shrinks; [exact E|]. unfold u64. rewrite Z.mod_small by lia. lia. }
    destruct (is_repeated _ _); [|auto].
    destruct (offsets_get _ _) as [[off ok]| | |]; try done. cbn [rbind] in E1.
    destruct ok; [injection E1 as <-; apply shrinks_refl|auto]. }
  destruct (fieldDataSize _ _) as [s| | |]; try done. cbn [rbind].
  destruct (s =? 0); [intros [= _ <-]; done|].
  intros E. eapply shrinks_trans; [exact Hs|eauto].
Qed.

Lemma Decode_shrinks fuel buf o reps err o' : zlen buf <= 65535 ->
  Decode fuel buf o reps = Ok (err, o') -> shrinks o o'.
Proof. intros Hl E. eapply shrinks_trans; [apply clear_shrinks|]. eapply decode_loop_shrinks; eauto. Qed.

(** ** Memory *)
Lemma no_alloc_refl σ : no_alloc σ σ.
Proof. split_and!; try done. intros k m m' H1 H2. rewrite H1 in H2. injection H2 as <-. done. Qed.
Lemma no_alloc_trans σ1 σ2 σ3 : no_alloc σ1 σ2 -> no_alloc σ2 σ3 -> no_alloc σ1 σ3.
Proof.
  intros (A1 & B1 & C1) (A2 & B2 & C2). split_and!; [congruence|congruence|].
  intros k m m' H1 H3.
  assert (is_Some (maps σ2 !! k)) as [m2 H2].
  { apply elem_of_dom. rewrite B1. apply elem_of_dom. eauto. }
  pose proof (C1 _ _ _ H1 H2). pose proof (C2 _ _ _ H2 H3). set_solver.
Qed.

Lemma put_offs_no_alloc σ h o σ' h' : put_offs σ h o = (σ', h') -> shrinks (hoffs σ h) o -> no_alloc σ σ'.
Proof.
  unfold put_offs, shrinks, hoffs. cbn [om]. destruct (h_m h) as [l|]; destruct (om o) as [m|]; intros [= <- <-].
  - destruct (maps σ !! l) as [m0|] eqn:El; [|done]. intros Hs. split_and!; [done| |].
    + cbn. rewrite dom_insert_L. apply elem_of_dom_2 in El. set_solver.
    + cbn. intros k m1 m2 H1 H2. destruct (decide (k = l)) as [->|Hne].
      * rewrite lookup_insert in H2. injection H2 as <-. rewrite El in H1. injection H1 as <-. done.
      * rewrite lookup_insert_ne in H2 by done. rewrite H1 in H2. injection H2 as <-. done.
  - intros _. apply no_alloc_refl.
  - done.
  - intros _. apply no_alloc_refl.
Qed.

Lemma put_offs_buf σ h o σ' h' : put_offs σ h o = (σ', h') -> h_buf h' = h_buf h /\ swf σ' (h_buf h) = swf σ (h_buf h).
Proof.
  intros E. pose proof (put_offs_arrs _ _ _ _ _ E) as Ha. revert E. unfold put_offs.
  destruct (h_m h), (om o); intros [= <- <-]; done.
Qed.

Lemma h_decode_no_alloc mt σ h s err σ' h' : zlen (sbytes σ s) <= 65535 ->
  h_decode mt σ h s = Ok (err, σ', h') -> no_alloc σ σ'.
Proof.
  intros Hl. unfold h_decode. destruct (Decode _ _ _ _) as [[e o]| | |] eqn:E; try done. cbn [rbind].
  destruct (put_offs σ (put_buf h s) o) as [σ1 h1] eqn:E2. intros [= <- <- <-].
  eapply put_offs_no_alloc; [exact E2|]. cbn. eapply Decode_shrinks; [exact Hl|exact E].
Qed.

Lemma h_from_small σ s i d : small σ s -> h_from s i = Ok d -> small σ d.
Proof.
  intros [Hs Hc] E. pose proof (h_from_sub _ _ _ _ Hs E) as [Hd _]. split; [done|].
  destruct s as [s|]; cbn in *.
  - destruct (Z.leb_spec 0 i); cbn in E; [|done]. destruct (i <=? slen s); [|done]. injection E as <-. cbn. lia.
  - destruct (i =? 0); [|done]. injection E as <-. done.
Qed.
Lemma h_range_small σ s lo hi d : small σ s -> h_range s lo hi = Ok d -> small σ d.
Proof.
  intros [Hs Hc] E. pose proof (h_range_sub _ _ _ _ _ Hs E) as [Hd _]. split; [done|].
  destruct s as [s|]; cbn in *.
  - destruct (Z.leb_spec 0 lo); cbn in E; [|done]. destruct ((lo <=? hi) && (hi <=? scap s)); [|done]. injection E as <-. cbn. lia.
  - destruct (_ && _); [|done]. injection E as <-. done.
Qed.

Lemma slice_at_small σ h f d : small σ (h_buf h) -> slice_at σ h f = Ok (Some d) -> small σ d.
Proof.
  intros Hs. unfold slice_at, with_offset. destruct (offsets_get _ _) as [[off ok]| | |]; try done. cbn [rbind].
  destruct ok; [|done]. destruct (h_from _ _) as [b| | |]; try done. cbn [rbind].
  destruct (uvarint _) as [len ls]. destruct (h_range _ _ _) as [d'| | |] eqn:E; try done. cbn [rbind].
  intros [= <-]. eapply h_range_small; eauto.
Qed.

Lemma small_None σ : small σ None.
Proof. split; [done|cbn; lia]. Qed.

Lemma h_find_small σ it f it' d : small σ it -> h_find σ it f = Ok (it', d) -> small σ it' /\ small σ d.
Proof.
  intros Hs. unfold h_find. destruct it as [s|]; [|intros [= <- <-]; done].
  destruct (uvarint _) as [len ls]. destruct (h_range _ _ _) as [m| | |] eqn:E; try done. cbn [rbind].
  apply (h_range_small σ) in E; [|done].
  destruct (find_pos _ _ _ _) as [[i|]| | |]; try done; cbn [rbind].
  - destruct (h_from _ _) as [r| | |] eqn:E2; try done. cbn [rbind]. intros [= <- <-].
    apply (h_from_small σ) in E2; [|done]. done.
  - intros [= <- <-]. split; [apply small_None|done].
Qed.

Lemma small_slice σ s : small σ s -> zlen (sbytes σ s) <= 65535.
Proof.
  intros [Hs Hc]. rewrite (sbytes_length σ s Hs). destruct s as [s|]; [|cbn; lia].
  destruct Hs as (l & Hl & H1 & H2 & H3). cbn in *. lia.
Qed.

Lemma small_arrs σ σ' s : arrs σ' = arrs σ -> small σ s -> small σ' s.
Proof. intros E [H1 H2]. split; [eapply swf_arrs; eauto|done]. Qed.
Lemma reader_small_arrs σ σ' t : arrs σ' = arrs σ -> reader_small σ t -> reader_small σ' t.
Proof.
  intros E [H1 H2]. split; (eapply Forall_impl; [eassumption|]); intros; eapply small_arrs; eauto.
Qed.
Lemma rcall_small_arrs σ σ' c : arrs σ' = arrs σ -> rcall_small σ c -> rcall_small σ' c.
Proof. intros E. destruct c; try done. cbn. apply small_arrs. done. Qed.

Lemma of_opt_Some {A} (o : option A) a : of_opt o = Ok a -> o = Some a.
Proof. destruct o; cbn; [congruence|done]. Qed.

Lemma h_decode_buf mt σ h s err σ' h' : h_decode mt σ h s = Ok (err, σ', h') -> h_buf h' = s.
Proof.
  unfold h_decode. destruct (Decode _ _ _ _) as [[e o]| | |] eqn:E; try done. cbn [rbind].
  destruct (put_offs σ (put_buf h s) o) as [σ1 h1] eqn:E2. intros [= <- <- <-].
  apply (put_offs_buf _ _ _ _ _ E2).
Qed.

Lemma rexec_no_alloc σ t c a σ' t' : reader_small σ t -> rcall_small σ c ->
  rexec σ t c = Ok (a, σ', t') -> no_alloc σ σ' /\ reader_small σ' t'.
Proof.
  intros Hwf Hc E. pose proof (rexec_arrs _ _ _ _ _ _ E) as Ha. revert E.
  assert (Hkeep : reader_small σ' t) by (eapply reader_small_arrs; [exact Ha|done]).
  destruct Hwf as [W1' W2'].
  pose proof (proj1 (Forall_lookup _ _) W1') as W1. pose proof (proj1 (Forall_lookup _ _) W2') as W2. cbn beta in W1.
  destruct Hkeep as [K1 K2].
  destruct c as [x T f|x|x mt s|x f y mt'|x f k|k f y mt']; cbn [rexec];
    destruct (of_opt _) as [h| | |] eqn:Eh; try done; cbn [rbind]; apply of_opt_Some in Eh.
  - destruct (h_get _ _ _ _); try done. intros [= <- <- <-]. split; [apply no_alloc_refl|done].
  - intros [= <- <- <-]. split; [apply no_alloc_refl|done].
  - destruct (h_decode _ _ _ _) as [[[e σ1] x1]| | |] eqn:E; try done. cbn.
    intros [= <- <- <-]. split; [eapply h_decode_no_alloc; [|exact E]; apply small_slice; done|].
    split; [|done]. cbn. apply Forall_insert; [done|]. rewrite (h_decode_buf _ _ _ _ _ _ _ E).
    eapply small_arrs; [exact Ha|done].
  - destruct (of_opt _) as [hy| | |] eqn:Ey; try done; cbn [rbind]; apply of_opt_Some in Ey.
    unfold h_message. destruct (slice_at σ h f) as [s| | |] eqn:Es; try done. cbn [rbind].
    destruct s as [[s|]|]; unfold default, from_option, id; cbn iota beta.
    + destruct (h_decode _ _ _ _) as [[[e σ1] x1]| | |] eqn:E; try done. cbn.
      intros [= <- <- <-].
      assert (Hw : small σ (Some s)) by (eapply slice_at_small; [exact (W1 _ _ Eh)|exact Es]).
      split; [eapply h_decode_no_alloc; [|exact E]; apply small_slice; done|].
      split; [|done]. cbn. apply Forall_insert; [done|]. rewrite (h_decode_buf _ _ _ _ _ _ _ E).
      eapply small_arrs; [exact Ha|done].
    + intros [= <- <- <-]. split; [apply no_alloc_refl|]. split; [|done]. cbn. apply Forall_insert; [done|]. eauto.
    + intros [= <- <- <-]. split; [apply no_alloc_refl|]. split; [|done]. cbn. apply Forall_insert; [done|]. eauto.
  - unfold h_iter, with_offset. destruct (offsets_get _ _) as [[off ok]| | |]; try done. cbn [rbind].
    destruct ok.
    + destruct (h_from _ _) as [b| | |] eqn:Eb; try done. cbn [rbind]. intros [= <- <- <-]. split; [apply no_alloc_refl|].
      split; [done|]. cbn. apply Forall_insert; [done|]. eapply h_from_small; [exact (W1 _ _ Eh)|exact Eb].
    + cbn [rbind]. intros [= <- <- <-]. split; [apply no_alloc_refl|]. split; [done|]. cbn. apply Forall_insert; [done|apply small_None].
  - destruct (of_opt _) as [hy| | |] eqn:Ey; try done; cbn [rbind]; apply of_opt_Some in Ey.
    unfold h_next. destruct (h_find σ h f) as [[it d]| | |] eqn:Ef; try done. cbn [rbind].
    destruct (h_find_small _ _ _ _ _ (W2 _ _ Eh) Ef) as [Hit Hd].
    destruct d as [s|].
    + destruct (h_decode _ _ _ _) as [[[e σ1] x1]| | |] eqn:E; try done. cbn.
      intros [= <- <- <-].
      split; [eapply h_decode_no_alloc; [|exact E]; apply small_slice; done|].
      split; cbn; (apply Forall_insert; [done|]); [rewrite (h_decode_buf _ _ _ _ _ _ _ E)|];
        (eapply small_arrs; [exact Ha|done]).
    + intros [= <- <- <-]. split; [apply no_alloc_refl|]. split; cbn; (apply Forall_insert; [done|]); eauto.
Qed.

Lemma rrun_no_alloc sch : forall σ ts l σ', Forall (reader_small σ) ts -> Forall (fun p => rcall_small σ p.2) sch ->
  rrun σ ts sch = (l, Ok σ') -> no_alloc σ σ'.
Proof.
  induction sch as [|[i c] sch IH]; intros σ ts l σ' Hts Hsch; cbn [rrun]; [intros [= <- <-]; apply no_alloc_refl|].
  destruct (ts !! i) as [t|] eqn:Et; [|done].
  destruct (rexec σ t c) as [[[a σ1] t1]| | |] eqn:E; try done.
  destruct (rrun σ1 _ sch) as [l' r'] eqn:E'. intros [= <- ->].
  apply Forall_cons in Hsch as [Hc Hsch]. pose proof Hts as Hts'. rewrite Forall_lookup in Hts'.
  destruct (rexec_no_alloc _ _ _ _ _ _ (Hts' _ _ Et) Hc E) as [Hn Hw].
  pose proof (rexec_arrs _ _ _ _ _ _ E) as Ha.
  eapply no_alloc_trans; [exact Hn|]. eapply IH; [..|exact E'].
  - apply Forall_insert; [|done]. eapply Forall_impl; [exact Hts|]. intros t'. apply reader_small_arrs. done.
  - eapply Forall_impl; [exact Hsch|]. intros p. apply rcall_small_arrs. done.
Qed.

(** ** Mutation *)
Lemma same_room_refl s : same_room s s.
Proof. destruct s; done. Qed.
Lemma same_room_trans a b c : same_room a b -> same_room b c -> same_room a c.
Proof. destruct a, b, c; try done. intros (A & B & C) (A' & B' & C'). split_and!; congruence. Qed.
Lemma same_room_cap a b : same_room a b -> hcap b = hcap a.
Proof. destruct a, b; try done. intros (_ & _ & H). exact H. Qed.

Lemma write_no_alloc σ a pos bs : is_Some (arrs σ !! a) -> no_alloc σ (write σ a pos bs).
Proof.
  intros Ha. split_and!; [|done|].
  - cbn. rewrite dom_insert_L. apply elem_of_dom in Ha. set_solver.
  - cbn. intros k m m' H1 H2. rewrite H1 in H2. injection H2 as <-. done.
Qed.

Lemma h_append_room grow σ s bs σ' s' : swf σ s -> h_append grow σ s bs = (σ', s') ->
  hlen s' <= hcap s -> no_alloc σ σ' /\ same_room s s'.
Proof.
  intros Hs E Hl. destruct (h_append_ok _ _ _ _ _ _ Hs E) as (_ & _ & _ & HL & _).
  unfold h_append in E. fold (hcap s) in E. destruct (Z.leb_spec (hlen s + zlen bs) (hcap s)); [|lia].
  destruct s as [s|]; injection E as <- <-.
  - split; [|done]. apply write_no_alloc. destruct Hs as (l & Hl' & _). eauto.
  - split; [apply no_alloc_refl|done].
Qed.

Lemma h_copy_room σ s i src σ' n : swf σ s -> h_copy σ s i src = Ok (σ', n) -> no_alloc σ σ'.
Proof.
  intros Hs. unfold h_copy. destruct (h_from s i) as [d| | |] eqn:E; try done. cbn [rbind].
  apply (h_from_sub σ) in E; [|done]. destruct d as [d|]; intros [= <- <-]; [|apply no_alloc_refl].
  apply write_no_alloc. destruct E as [(l & Hl & _) _]. eauto.
Qed.

Lemma hset_new_room grow σ h f tag valLen v σ' h' :
  swf σ (h_buf h) -> valLen ++ src_bytes σ v <> [] \/ valLen <> [] ->
  (forall τ, zlen (src_bytes τ v) = zlen (src_bytes σ v) \/ valLen <> []) ->
  hset_new grow σ h f tag valLen v = Ok (σ', h') ->
  hlen (h_buf h') <= hcap (h_buf h) -> hlen (h_buf h') <= 65535 ->
  no_alloc σ σ' /\ same_room (h_buf h) (h_buf h').
Proof.
  intros Hs Hne Hlen E Hc Hl. unfold hset_new in E.
  destruct (h_append grow σ (h_buf h) tag) as [σ1 b1] eqn:E1.
  destruct (offsets_set _ _ _) as [o| | |] eqn:Eo; try done. cbn [rbind] in E.
  destruct (put_offs σ1 (put_buf h b1) o) as [σ2 h2] eqn:E2.
  destruct (h_append grow σ2 b1 valLen) as [σ3 b3] eqn:E3.
  destruct (h_append grow σ3 b3 (src_bytes σ3 v)) as [σ4 b4] eqn:E4.
  injection E as <- <-. cbn [h_buf put_buf] in Hc, Hl |- *.
  destruct (h_append_ok _ _ _ _ _ _ Hs E1) as (_ & S1 & M1 & L1 & _).
  destruct (put_offs_buf _ _ _ _ _ E2) as [B2 S2]. cbn [h_buf put_buf] in B2, S2.
  assert (S2' : swf σ2 b1) by (rewrite S2; done).
  destruct (h_append_ok _ _ _ _ _ _ S2' E3) as (_ & S3 & M3 & L3 & _).
  destruct (h_append_ok _ _ _ _ _ _ S3 E4) as (_ & S4 & M4 & L4 & _).
  pose proof (hlen_nonneg _ _ S1) as N1.
  assert (Z1 : 0 <= zlen valLen) by (unfold zlen; lia).
  assert (Z2 : 0 <= zlen (src_bytes σ3 v)) by (unfold zlen; lia).
  assert (Hpos : 1 <= zlen valLen + zlen (src_bytes σ3 v)).
  { assert (Hv : valLen <> [] -> 1 <= zlen valLen) by (destruct valLen; [done|unfold zlen; cbn; lia]).
    destruct (Hlen σ3) as [Hx|Hx]; [|specialize (Hv Hx); lia].
    destruct Hne as [Hne|Hne]; [|specialize (Hv Hne); lia].
    rewrite Hx. assert (1 <= zlen (valLen ++ src_bytes σ v)).
    { destruct (valLen ++ src_bytes σ v) eqn:E; [done|]. unfold zlen. cbn. lia. }
    unfold zlen in *. rewrite app_length in H. lia. }
  destruct (h_append_room _ _ _ _ _ _ Hs E1) as [A1 R1]; [lia|].
  pose proof (same_room_cap _ _ R1) as C1.
  destruct (h_append_room _ _ _ _ _ _ S2' E3) as [A3 R3]; [lia|].
  pose proof (same_room_cap _ _ R3) as C3.
  destruct (h_append_room _ _ _ _ _ _ S3 E4) as [A4 R4]; [lia|].
  assert (A2 : no_alloc σ1 σ2).
  { eapply put_offs_no_alloc; [exact E2|].
    assert (hoffs σ1 (put_buf h b1) = hoffs σ1 h) as -> by done.
    eapply offsets_set_shrinks; [exact Eo|]. unfold u64. rewrite Z.mod_small by lia. lia. }
  split.
  - eapply no_alloc_trans; [exact A1|]. eapply no_alloc_trans; [exact A2|]. eapply no_alloc_trans; [exact A3|]. exact A4.
  - eapply same_room_trans; [exact R1|]. eapply same_room_trans; [exact R3|]. exact R4.
Qed.

(** The two kinds of values the setters pass. *)
Definition arg_pos (valLen : list Z) (v : src) : Prop :=
  match v with Scratch bs => valLen ++ bs <> [] | View _ => valLen <> [] end.

Lemma arg_pos_new grow σ h f tag valLen v σ' h' :
  swf σ (h_buf h) -> arg_pos valLen v ->
  hset_new grow σ h f tag valLen v = Ok (σ', h') ->
  hlen (h_buf h') <= hcap (h_buf h) -> hlen (h_buf h') <= 65535 ->
  no_alloc σ σ' /\ same_room (h_buf h) (h_buf h').
Proof. intros Hs Hp. apply hset_new_room; [done|destruct v; cbn in *; auto|destruct v; cbn in *; auto]. Qed.

Lemma hsetSingle_room grow σ h f typ valLen v σ' h' :
  hwf σ h -> arg_pos valLen v ->
  hsetSingle grow σ h f typ valLen v = Ok (σ', h') ->
  hlen (h_buf h') <= hcap (h_buf h) -> hlen (h_buf h') <= 65535 ->
  no_alloc σ σ' /\ same_room (h_buf h) (h_buf h').
Proof.
  intros [Hs _] Hp E Hc Hl. unfold hsetSingle in E.
  destruct (put_uvarint _ _) as [tag| | |]; try done. cbn [rbind] in E.
  destruct (offsets_get _ _) as [[off ok]| | |]; try done. cbn [rbind] in E.
  destruct ok; [|eapply arg_pos_new; eauto].
  destruct (old_len _ _ _) as [ol| | |]; try done. cbn [rbind] in E.
  destruct (_ =? _).
  - destruct (h_copy σ (h_buf h) off valLen) as [[σ1 n1]| | |] eqn:E1; try done. cbn [rbind] in E.
    destruct (h_copy σ1 _ _ _) as [[σ2 n2]| | |] eqn:E2; try done. cbn [rbind] in E. injection E as <- <-.
    split; [|apply same_room_refl]. eapply no_alloc_trans; [eapply h_copy_room; eauto|].
    eapply h_copy_room; [|exact E2]. eapply h_copy_frame in E1; [|done]. eapply swf_frame; [apply E1|done].
  - destruct (h_from _ _) as [s| | |]; try done. cbn [rbind] in E.
    destruct (h_copy σ _ _ _) as [[σ1 n1]| | |] eqn:E1; try done. cbn [rbind] in E.
    destruct (h_range _ _ _) as [b| | |] eqn:Eb; try done. cbn [rbind] in E.
    destruct (adjust_map_keys _ _ _ _) as [o| | |] eqn:Eo; try done. cbn [rbind] in E.
    destruct (put_offs _ _ _) as [σ2 h2] eqn:E2.
    assert (S1 : swf σ1 (h_buf h)) by (pose proof (h_copy_frame _ _ _ _ _ _ Hs E1) as F; eapply swf_frame; [apply F|done]).
    pose proof (h_range_sub _ _ _ _ _ S1 Eb) as (Sb & _).
    destruct (put_offs_buf _ _ _ _ _ E2) as [B2 S2]. cbn [h_buf put_buf] in B2, S2.
    assert (R : same_room (h_buf h) b).
    { destruct (h_buf h) as [s0|]; cbn in Eb.
      - destruct (_ && _); [|done]. injection Eb as <-. cbn. split_and!; [done|lia|lia].
      - destruct (_ =? _); [|done]. injection Eb as <-. done. }
    pose proof (same_room_cap _ _ R) as HC.
    assert (Hpp : swf σ2 (h_buf h2)) by (rewrite B2, S2; done).
    destruct (arg_pos_new _ _ _ _ _ _ _ _ _ Hpp Hp E) as [A3 R3]; [rewrite B2; lia|done|].
    rewrite B2 in R3. split; [|eapply same_room_trans; eauto].
    eapply no_alloc_trans; [eapply h_copy_room; eauto|]. eapply no_alloc_trans; [|exact A3].
    eapply put_offs_no_alloc; [exact E2|]. apply adjust_keys_shrinks in Eo. exact Eo.
Qed.

Lemma happendSingle_room grow σ h f typ valLen v σ' h' :
  hwf σ h -> valLen <> [] ->
  happendSingle grow σ h f typ valLen v = Ok (σ', h') ->
  hlen (h_buf h') <= hcap (h_buf h) -> hlen (h_buf h') <= 65535 ->
  no_alloc σ σ' /\ same_room (h_buf h) (h_buf h').
Proof.
  intros [Hs _] Hp E Hc Hl. unfold happendSingle in E.
  destruct (put_uvarint _ _) as [tag| | |]; try done. cbn [rbind] in E.
  destruct (h_append grow σ (h_buf h) tag) as [σ1 b1] eqn:E1.
  destruct (offsets_get _ _) as [[off ok]| | |]; try done. cbn [rbind] in E.
  destruct (if ok then _ else _) as [o| | |] eqn:Eo; try done. cbn [rbind] in E.
  destruct (put_offs σ1 (put_buf h b1) o) as [σ2 h2] eqn:E2.
  destruct (h_append grow σ2 b1 valLen) as [σ3 b3] eqn:E3.
  destruct (h_append grow σ3 b3 (src_bytes σ3 v)) as [σ4 b4] eqn:E4.
  injection E as <- <-. cbn [h_buf put_buf] in Hc, Hl |- *.
  destruct (h_append_ok _ _ _ _ _ _ Hs E1) as (_ & S1 & M1 & L1 & _).
  destruct (put_offs_buf _ _ _ _ _ E2) as [B2 S2]. cbn [h_buf put_buf] in B2, S2.
  assert (S2' : swf σ2 b1) by (rewrite S2; done).
  destruct (h_append_ok _ _ _ _ _ _ S2' E3) as (_ & S3 & M3 & L3 & _).
  destruct (h_append_ok _ _ _ _ _ _ S3 E4) as (_ & S4 & M4 & L4 & _).
  pose proof (hlen_nonneg _ _ S1) as N1.
  assert (Z1 : 1 <= zlen valLen) by (destruct valLen; [done|unfold zlen; cbn; lia]).
  assert (Z2 : 0 <= zlen (src_bytes σ3 v)) by (unfold zlen; lia).
  destruct (h_append_room _ _ _ _ _ _ Hs E1) as [A1 R1]; [lia|].
  pose proof (same_room_cap _ _ R1) as C1.
  destruct (h_append_room _ _ _ _ _ _ S2' E3) as [A3 R3]; [lia|].
  pose proof (same_room_cap _ _ R3) as C3.
  destruct (h_append_room _ _ _ _ _ _ S3 E4) as [A4 R4]; [lia|].
  assert (A2 : no_alloc σ1 σ2).
  { eapply put_offs_no_alloc; [exact E2|].
    assert (hoffs σ1 (put_buf h b1) = hoffs σ1 h) as -> by done.
    destruct ok; [injection Eo as <-; apply shrinks_refl|].
    eapply offsets_set_shrinks; [exact Eo|]. unfold u64. rewrite Z.mod_small by lia. lia. }
  split.
  - eapply no_alloc_trans; [exact A1|]. eapply no_alloc_trans; [exact A2|]. eapply no_alloc_trans; [exact A3|]. exact A4.
  - eapply same_room_trans; [exact R1|]. eapply same_room_trans; [exact R3|]. exact R4.
Qed.

Lemma put_uvarint_pos cap x bs : put_uvarint cap x = Ok bs -> bs <> [].
Proof.
  destruct cap as [|cap]; cbn [put_uvarint]; [done|]. destruct (128 <=? x); [|intros [= <-]; done].
  destruct (put_uvarint _ _) as [r| | |]; try done. cbn. intros [= <-]. done.
Qed.

Lemma set_args_pos T v typ l x : set_args T v = Ok (typ, l, x) -> l ++ x <> [].
Proof.
  assert (P : forall cap z, forall r, (let* val := put_uvarint cap z in Ok (WireVarint, ([] : list Z), val)) = Ok r -> r.1.2 ++ r.2 <> []).
  { intros cap z r. destruct (put_uvarint cap z) as [b| | |] eqn:E; try done. cbn. intros [= <-]. cbn. eapply put_uvarint_pos; eauto. }
  assert (P' : forall cap z (y : list Z), forall r, (let* val := put_uvarint cap z in Ok (WireBytes, val, y)) = Ok r -> r.1.2 ++ r.2 <> []).
  { intros cap z y r. destruct (put_uvarint cap z) as [b| | |] eqn:E; try done. cbn. intros [= <-]. cbn.
    apply put_uvarint_pos in E. destruct b; done. }
  destruct T, v; cbn [set_args]; intros E; try done; unfold put_varint in E;
    try (apply P in E; exact E); try (apply P' in E; exact E); injection E as <- <- <-; done.
Qed.

Lemma h_mut_room grow σ h m σ' h' :
  hwf σ h -> h_mut grow σ h m = Ok (σ', h') ->
  hlen (h_buf h') <= hcap (h_buf h) -> hlen (h_buf h') <= 65535 ->
  no_alloc σ σ' /\ same_room (h_buf h) (h_buf h').
Proof.
  intros Hwf. destruct m as [T f v|f s|f v]; cbn [h_mut].
  - unfold h_set. destruct (set_args T v) as [[[typ l] x]| | |] eqn:Ea; try done. cbn [rbind].
    apply hsetSingle_room; [done|]. cbn. eapply set_args_pos; eauto.
  - unfold h_set_view. destruct (put_uvarint _ _) as [l| | |] eqn:El; try done. cbn [rbind].
    apply hsetSingle_room; [done|]. cbn. eapply put_uvarint_pos; eauto.
  - unfold h_append_bytes. destruct (put_uvarint _ _) as [l| | |] eqn:El; try done. cbn [rbind].
    apply happendSingle_room; [done|]. eapply put_uvarint_pos; eauto.
Qed.

Lemma h_muts_room grow ms : forall σ h σ' h',
  hwf σ h -> h_muts grow σ h ms = Ok (σ', h') ->
  (forall ms1 ms2 σ1 h1, ms = ms1 ++ ms2 -> h_muts grow σ h ms1 = Ok (σ1, h1) ->
     hlen (h_buf h1) <= hcap (h_buf h) /\ hlen (h_buf h1) <= 65535) ->
  no_alloc σ σ' /\ same_room (h_buf h) (h_buf h').
Proof.
  induction ms as [|m ms IH]; intros σ h σ' h' Hwf; cbn [h_muts].
  - intros [= <- <-] _. split; [apply no_alloc_refl|apply same_room_refl].
  - destruct (h_mut grow σ h m) as [[σ1 h1]| | |] eqn:E; try done. cbn [rbind]. intros E2 Hb.
    destruct (Hb [m] ms σ1 h1 eq_refl) as [Hc Hl]; [cbn [h_muts]; rewrite E; done|].
    destruct (h_mut_room _ _ _ _ _ _ Hwf E Hc Hl) as [A1 R1].
    destruct (h_mut_frame _ _ _ _ _ _ Hwf E) as [W1 _].
    destruct (IH _ _ _ _ W1 E2) as [A2 R2].
    { intros ms1 ms2 σ2 h2 -> E3. rewrite (same_room_cap _ _ R1).
      apply (Hb (m :: ms1) ms2 σ2 h2 eq_refl). cbn [h_muts]. rewrite E. done. }
    split; [eapply no_alloc_trans; eauto|eapply same_room_trans; eauto].
Qed.

Lemma h_reset_no_alloc σ h s σ' h' : h_reset σ h s = Ok (σ', h') -> no_alloc σ σ' /\ h_buf h' = s.
Proof.
  unfold h_reset. destruct (0 <? hlen s); [done|]. intros [= E]. split.
  - eapply put_offs_no_alloc; [exact E|]. apply clear_shrinks.
  - apply (put_offs_buf _ _ _ _ _ E).
Qed.

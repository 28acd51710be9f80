(** * A goroutine alone does what Recover.v says *)
From Verif Require Import GoBase Heap HeapFacts HeapSet HeapExec Fuel Recover RecoverFacts SpecShare.
From Verif Require Import Access AccessFacts AccessApi AccessMem AccessObj AccessSet.

Lemma ids_mono kd T T' : dom T ⊆ dom T' -> ids kd T ⊆ ids kd T'.
Proof.
  intros H x Hx. apply elem_ids in Hx as (l & w & Hw & E). assert (l ∈ dom T') as [w' Hw']%elem_of_dom by (apply H, elem_of_dom; eauto).
  apply elem_ids. eauto.
Qed.

Section run.
(** The goroutine was given the variables [R0], and uses the structs [US] and the
    slices [UH] among them. *)
Context (al : kind -> gset nat -> nat) (RO : gset loc) (R0 : regs) (US UH : nat -> Prop).
Notation wp := (wp al RO).
Notation rep := (rep al RO).
Notation writable := (writable RO).

Definition usable (i : nat) : Prop := US i \/ (length (objs R0) <= i)%nat.
Definition visible (k : nat) : Prop := UH k \/ (length (held R0) <= k)%nat.

(** The locations [T] a goroutine knows of and its variables [R] hold the state [P]. *)
Definition holds (T : heap) (R : regs) (P : pst) : Prop :=
  rep T (p_mem P) /\ length (objs R) = length (p_objs P) /\
  (forall i x y, objs R !! i = Some x -> p_objs P !! i = Some y -> x.1 = y.1 /\ x.2 ∈ ids KStruct T /\ (usable i -> own T (p_mem P) (alen x.1) x.2 y.2)) /\
  NoDup ((objs R).*2) /\
  held R = p_held P /\ forall k s, held R !! k = Some s -> visible k -> knows T (p_mem P) s.
(** Structs that were not there at the start are the goroutine's own. *)
Definition newer (R : regs) : Prop := forall i x, objs R !! i = Some x -> objs R0 !! i = Some x \/ forall l, part_of l = Some x.2 -> l ∉ RO.

Definition free_struct (i : nat) : Prop := forall mt o, objs R0 !! i = Some (mt, o) -> forall l, part_of l = Some o -> l ∉ RO.
Definition free_table (P : pst) (i : nat) : Prop := forall mt h l, p_objs P !! i = Some (mt, h) -> h_m h = Some l -> Table l ∉ RO.
Definition free_buffer (P : pst) (i : nat) : Prop := forall mt h, p_objs P !! i = Some (mt, h) -> writable (h_buf h).
(** The action uses only what the goroutine may use, and does not write to what it may
    not write to. *)
Definition allowed (P : pst) (a : act) : Prop :=
  match a with
  | ANew _ _ | AMake _ _ => True
  | ACopy i | AGet i _ _ | AEncode i | AIter i _ => usable i
  | ACut k _ _ | ALook k | ANext k _ => visible k
  | AWrite k _ _ | AExtend k _ => visible k /\ forall s, p_held P !! k = Some s -> writable s
  | ASet i _ _ _ => usable i /\ free_struct i /\ free_table P i /\ free_buffer P i
  | ASetSlice i _ k | AAppend i _ k => usable i /\ visible k /\ free_struct i /\ free_table P i /\ free_buffer P i
  | ADecode i k | AReset i k => usable i /\ visible k /\ free_struct i /\ free_table P i
  end.

Lemma holds_obj T R P i : holds T R P -> usable i ->
  match objs R !! i, p_objs P !! i with
  | Some (mt, o), Some (mt', h) => mt' = mt /\ own T (p_mem P) (alen mt) o h
  | None, None => True
  | _, _ => False
  end.
Proof.
  intros (_ & HL & H & _) U. destruct (objs R !! i) as [[mt o]|] eqn:E, (p_objs P !! i) as [[mt' h]|] eqn:Ey; [|..|exact I].
  - destruct (H _ _ _ E Ey) as (E1 & _ & E2). cbn in *. subst. auto.
  - apply lookup_lt_Some in E. apply lookup_ge_None in Ey. lia.
  - apply lookup_lt_Some in Ey. apply lookup_ge_None in E. lia.
Qed.
Lemma holds_held T R P k : holds T R P -> visible k -> held R !! k = p_held P !! k /\ forall s, p_held P !! k = Some s -> knows T (p_mem P) s.
Proof. intros (_ & _ & _ & _ & E & H) V. rewrite E in *. split; [reflexivity|]. intros s Hs. eauto. Qed.

Lemma holds_update T R P i mt o T' σ' h' : holds T R P -> objs R !! i = Some (mt, o) ->
  rep T' σ' -> own T' σ' (alen mt) o h' -> frame (fun x => x = o) T (p_mem P) T' σ' ->
  holds T' R (mkPst σ' (<[i := (mt, h')]> (p_objs P)) (p_held P)).
Proof.
  intros (R1 & HL & H2 & H3 & H4 & H5) Ei R' O' F. split_and!; cbn [p_mem p_objs p_held]; [exact R'|rewrite insert_length; exact HL| |exact H3|exact H4|].
  - intros j x y Hx Hy. destruct (decide (j = i)) as [->|Hne].
    + rewrite Ei in Hx. injection Hx as <-. pose proof (lookup_lt_Some _ _ _ Ei). rewrite list_lookup_insert in Hy by lia.
      injection Hy as <-. split; [reflexivity|]. split; [|intros _; exact O']. destruct (lookup_lt_is_Some_2 (p_objs P) i) as [y0 Hy0]; [lia|].
      destruct (H2 _ _ _ Ei Hy0) as (_ & Hin & _). exact (ids_mono _ _ _ (proj1 F) _ Hin).
    + rewrite list_lookup_insert_ne in Hy by congruence. destruct (H2 _ _ _ Hx Hy) as (A & B & C).
      split; [exact A|]. split; [exact (ids_mono _ _ _ (proj1 F) _ B)|]. intros U. eapply own_frame_struct; [exact F| |exact (C U)]. cbn. intros Eo. apply Hne.
      eapply NoDup_lookup; [exact H3| |]; rewrite list_lookup_fmap; [rewrite Hx|rewrite Ei]; cbn; [reflexivity|]. rewrite Eo. reflexivity.
  - intros k s Hs V. eapply knows_frame; [exact F|]. eauto.
Qed.
Lemma holds_mem T R P T' σ' : holds T R P -> rep T' σ' -> frame (fun _ => False) T (p_mem P) T' σ' -> holds T' R (mkPst σ' (p_objs P) (p_held P)).
Proof.
  intros (R1 & HL & H2 & H3 & H4 & H5) R' F. split_and!; cbn [p_mem p_objs p_held]; [exact R'|exact HL| |exact H3|exact H4|].
  - intros j x y Hx Hy. destruct (H2 _ _ _ Hx Hy) as (A & B & C). split; [exact A|]. split; [exact (ids_mono _ _ _ (proj1 F) _ B)|].
    intros U. eapply own_frame_struct; [exact F|intros []|exact (C U)].
  - intros k s Hs V. eapply knows_frame; [exact F|]. eauto.
Qed.
Lemma holds_hold T R P s : holds T R P -> knows T (p_mem P) s -> holds T (hold R s) (keep P (p_mem P) s).
Proof.
  intros (R1 & HL & H2 & H3 & H4 & H5) K. split_and!; cbn [keep hold p_mem p_objs p_held objs held]; [exact R1|exact HL|exact H2|exact H3|rewrite H4; reflexivity|].
  intros k s2 Hs V. apply lookup_app_Some in Hs as [Hs|[_ Hs]]; [eauto|]. apply list_lookup_singleton_Some in Hs as [_ <-]. exact K.
Qed.
Lemma holds_eta T R P : holds T R P -> holds T R (mkPst (p_mem P) (p_objs P) (p_held P)).
Proof. destruct P. auto. Qed.

(** ** New structs *)
Lemma rep_same T σ T' : rep T σ -> dom T' = dom T -> (forall l, (block l).1 <> KStruct -> T' !! l = T !! l) -> rep T' σ.
Proof.
  intros [R1 R2 R3 R4 R5 R6] Hd Hl. split.
  - exact R1.
  - rewrite (ids_dom _ _ _ Hd). exact R2.
  - rewrite (ids_dom _ _ _ Hd). exact R3.
  - intros a j w. rewrite Hl by discriminate. apply R4.
  - intros l. rewrite Hl by discriminate. apply R5.
  - rewrite Hd. exact R6.
Qed.
Lemma rep_new_struct T σ n o : rep T σ -> o ∉ ids KStruct T -> rep (new_cells KStruct n o ∪ T) σ.
Proof.
  intros [R1 R2 R3 R4 R5 R6] Hf. split.
  - exact R1.
  - rewrite ids_new_other by discriminate. exact R2.
  - rewrite ids_new_other by discriminate. exact R3.
  - intros a j w. rewrite new_other by discriminate. apply R4.
  - intros l. rewrite new_other by discriminate. apply R5.
  - rewrite dom_union_L. set_solver.
Qed.
Lemma new_struct_frame T σ n o : frame (fun x => x = o) T σ (new_cells KStruct n o ∪ T) σ.
Proof. split; [rewrite dom_union_L; set_solver|]. split; [apply grows_refl|]. intros l o2 Hl Hn. apply new_other. rewrite Hl. congruence. Qed.
Lemma fresh_free T σ o : rep T σ -> o ∉ ids KStruct T -> forall l, part_of l = Some o -> l ∉ RO.
Proof. intros R Hf l Hl HR. apply Hf. eapply elem_ids_dom; [exact (rep_ro _ _ _ _ R _ HR)|]. destruct l; cbn in *; congruence. Qed.
Lemma holds_new T R P mt o T' h : holds T R P -> newer R -> o ∉ ids KStruct T -> rep T' (p_mem P) -> own T' (p_mem P) (alen mt) o h ->
  frame (fun x => x = o) T (p_mem P) T' (p_mem P) ->
  holds T' (mkRegs (objs R ++ [(mt, o)]) (held R)) (mkPst (p_mem P) (p_objs P ++ [(mt, h)]) (p_held P)) /\
  newer (mkRegs (objs R ++ [(mt, o)]) (held R)).
Proof.
  intros (R1 & HL & H2 & H3 & H4 & H5) Hn Hf R' O' F.
  assert (Hne : forall i x, objs R !! i = Some x -> x.2 <> o).
  { intros i x Hx Eo. destruct (lookup_lt_is_Some_2 (p_objs P) i) as [y Hy]; [rewrite <- HL; eapply lookup_lt_Some; exact Hx|].
    destruct (H2 _ _ _ Hx Hy) as (_ & Hin & _). apply Hf. rewrite <- Eo. exact Hin. }
  split; [split_and!; cbn [p_mem p_objs p_held objs held]|].
  - exact R'.
  - rewrite !app_length, HL. reflexivity.
  - intros j x y Hx Hy. destruct (decide (j < length (objs R))%nat) as [Hj|Hj].
    + rewrite lookup_app_l in Hx by exact Hj. rewrite lookup_app_l in Hy by lia. destruct (H2 _ _ _ Hx Hy) as (A & B & C).
      split; [exact A|]. split; [exact (ids_mono _ _ _ (proj1 F) _ B)|]. intros U. eapply own_frame_struct; [exact F| |exact (C U)]. eapply Hne. exact Hx.
    + rewrite lookup_app_r in Hx by lia. rewrite lookup_app_r in Hy by lia. apply list_lookup_singleton_Some in Hx as [_ <-]. apply list_lookup_singleton_Some in Hy as [_ <-].
      split; [reflexivity|]. split; [|intros _; exact O']. destruct O' as ((O1 & _) & _). apply elem_ids. eauto.
  - rewrite fmap_app. apply NoDup_app. split; [exact H3|]. split; [|apply NoDup_singleton]. intros x Hx Hx2. apply elem_of_list_fmap in Hx as (y & -> & Hy).
    apply elem_of_list_singleton in Hx2. apply elem_of_list_lookup in Hy as [i Hi]. cbn in Hx2. exact (Hne _ _ Hi Hx2).
  - exact H4.
  - intros k s Hs V. eapply knows_frame; [exact F|]. eauto.
  - intros i x. cbn [objs]. intros Hx. apply lookup_app_Some in Hx as [Hx|[Hx1 Hx2]]; [exact (Hn _ _ Hx)|]. right.
    apply list_lookup_singleton_Some in Hx2 as [_ <-]. apply (fresh_free T (p_mem P)); assumption.
Qed.

Lemma wp_copy_struct n o o2 h T σ : o <> o2 -> rep T σ -> orep T n o h -> (forall l, part_of l = Some o2 -> l ∉ RO) ->
  orep T n o2 (mkH None (replicate n 0) None) ->
  wp T (copy_struct n o o2) (fun r T' => r = Ok tt /\ orep T' n o2 h /\ dom T' = dom T /\ forall l, block l <> (KStruct, o2) -> T' !! l = T !! l).
Proof.
  intros Hne R (O1 & O2 & O3 & O4) HRO (N1 & N2 & _ & N4). cbn [h_buf h_m h_a] in *. unfold copy_struct.
  assert (Hoff : forall i, (i < n)%nat -> T !! Off o2 i = Some (Num 0)) by (intros i Hi; apply N4, lookup_replicate_2; exact Hi).
  eapply wp_seq; [apply wp_load_slice, O1|]. cbv beta iota. apply wp_bind, wp_store; [apply elem_of_dom; eauto|apply HRO; reflexivity|].
  set (T1 := <[Buf o2 := Hdr (h_buf h)]> T).
  assert (L1 : T1 !! Ref o = Some (Ptr (h_m h))) by (unfold T1; rewrite lookup_insert_ne by discriminate; exact O2).
  eapply wp_seq; [apply wp_load_ref, L1|]. cbv beta iota.
  apply wp_bind, wp_store; [unfold T1; rewrite dom_insert_L; apply elem_of_union; right; apply elem_of_dom; eauto|apply HRO; reflexivity|].
  set (T2 := <[Ref o2 := Ptr (h_m h)]> T1).
  assert (Hd2 : dom T2 = dom T).
  { unfold T2, T1. rewrite !dom_insert_L. apply elem_of_dom_2 in N1. apply elem_of_dom_2 in N2. set_solver. }
  assert (Hl2 : forall l, block l <> (KStruct, o2) -> T2 !! l = T !! l).
  { intros l Hl. unfold T2, T1. rewrite lookup_insert_ne by (intros <-; exact (Hl eq_refl)). apply lookup_insert_ne. intros <-. exact (Hl eq_refl). }
  assert (HB : T2 !! Buf o2 = Some (Hdr (h_buf h))) by (unfold T2, T1; rewrite lookup_insert_ne by discriminate; apply lookup_insert).
  assert (HRf : T2 !! Ref o2 = Some (Ptr (h_m h))) by apply lookup_insert.
  assert (Hpre : forall j, (j < 0)%nat -> T2 !! Off o2 j = Num <$> h_a h !! j) by lia.
  clearbody T2. clear L1. revert T2 Hd2 Hl2 HB HRf Hpre.
  assert (Hgo : forall k i T2, (i + k = n)%nat -> dom T2 = dom T -> (forall l, block l <> (KStruct, o2) -> T2 !! l = T !! l) ->
    T2 !! Buf o2 = Some (Hdr (h_buf h)) -> T2 !! Ref o2 = Some (Ptr (h_m h)) -> (forall j, (j < i)%nat -> T2 !! Off o2 j = Num <$> h_a h !! j) ->
    wp T2 ((fix go (k i : nat) : prog unit :=
      match k with
      | O => ret tt
      | S k => let! x := load_num (Off o i) in let! _ := store (Off o2 i) (Num x) in go k (S i)
      end) k i) (fun r T' => r = Ok tt /\ orep T' n o2 h /\ dom T' = dom T /\ forall l, block l <> (KStruct, o2) -> T' !! l = T !! l)).
  { induction k as [|k IH]; intros i T2 Hi Hd2 Hl2 HB HRf Hpre.
    - apply wp_ret. split; [reflexivity|]. split_and!; auto. split_and!; auto. intros j x Hx. rewrite Hpre, Hx by (apply lookup_lt_Some in Hx; lia). reflexivity.
    - assert (is_Some (h_a h !! i)) as [y Hy] by (apply lookup_lt_is_Some; lia).
      assert (Ho : T2 !! Off o i = Some (Num y)) by (rewrite Hl2 by (cbn; congruence); auto).
      eapply wp_seq; [apply wp_load_num, Ho|]. cbv beta iota.
      assert (Hin : Off o2 i ∈ dom T2) by (rewrite Hd2; apply elem_of_dom; rewrite Hoff by lia; eauto).
      apply wp_bind, wp_store; [exact Hin|apply HRO; reflexivity|]. apply IH; [lia|rewrite dom_insert_L; set_solver| | | |].
      + intros l Hl. rewrite lookup_insert_ne by (intros <-; exact (Hl eq_refl)). auto.
      + rewrite lookup_insert_ne by discriminate. exact HB.
      + rewrite lookup_insert_ne by discriminate. exact HRf.
      + intros j Hj. destruct (decide (j = i)) as [->|Hne2]; [rewrite lookup_insert, Hy; reflexivity|]. rewrite lookup_insert_ne by congruence. apply Hpre. lia. }
  intros T2 Hd2 Hl2 HB HRf Hpre. exact (Hgo n 0%nat T2 eq_refl Hd2 Hl2 HB HRf Hpre).
Qed.

(** ** One action *)
Context (more : nat) (grow : Z -> Z -> Z).
Definition after (R : regs) (x : res SpecShare.seen * pst) (r : res (SpecShare.seen * regs)) (T' : heap) : Prop :=
  match x.1 with
  | Ok o => exists R', r = Ok (o, R') /\ holds T' R' x.2 /\ newer R'
  | Panic => r = Panic /\ holds T' R x.2
  | PastLen => r = PastLen
  | OutOfFuel => r = OutOfFuel
  end.

(** The struct and the slice an action is about. *)
Lemma with_obj {B} T R P i (f : mtype * nat -> prog B) (Q : res B -> heap -> Prop) : holds T R P -> usable i ->
  match objs R !! i, p_objs P !! i with
  | Some (mt, o), Some (mt', h) => mt' = mt -> own T (p_mem P) (alen mt) o h -> wp T (f (mt, o)) Q
  | None, None => Q Panic T
  | _, _ => True
  end -> wp T (bind (Stop (of_opt (objs R !! i))) f) Q.
Proof.
  intros H U K. pose proof (holds_obj T R P i H U) as HO. apply wp_lift. destruct (objs R !! i) as [[mt o]|], (p_objs P !! i) as [[mt' h]|]; cbn [of_opt]; try contradiction; [|exact K].
  destruct HO. auto.
Qed.
Lemma with_held {B} T R P k (f : option slice -> prog B) (Q : res B -> heap -> Prop) : holds T R P -> visible k ->
  match p_held P !! k with Some s => knows T (p_mem P) s -> wp T (f s) Q | None => Q Panic T end ->
  wp T (bind (Stop (of_opt (held R !! k))) f) Q.
Proof.
  intros H V K. destruct (holds_held T R P k H V) as [E Hk]. apply wp_lift. rewrite E. destruct (p_held P !! k) as [s|]; cbn [of_opt]; auto.
Qed.

Lemma free_mine T R P i mt o h : holds T R P -> newer R -> objs R !! i = Some (mt, o) -> p_objs P !! i = Some (mt, h) ->
  free_struct i -> free_table P i -> mine RO o h.
Proof.
  intros H Hn E1 E2 F1 F2. split.
  - intros l Hl. destruct (Hn _ _ E1) as [E0|E0]; [exact (F1 _ _ E0 _ Hl)|exact (E0 _ Hl)].
  - intros l Hl. exact (F2 _ _ _ E2 Hl).
Qed.

Lemma after_post b T R P i mt o (x : res unit * (mem * hmsg)) : holds T R P -> newer R -> objs R !! i = Some (mt, o) ->
  forall r T', post al RO T (p_mem P) b (alen mt) o x r T' ->
  match r with
  | Ok a => wp T' (ret (SawNothing, R)) (after R (let* _ := x.1 in Ok SawNothing, mkPst x.2.1 (<[i := (mt, x.2.2)]> (p_objs P)) (p_held P)))
  | Panic => after R (let* _ := x.1 in Ok SawNothing, mkPst x.2.1 (<[i := (mt, x.2.2)]> (p_objs P)) (p_held P)) Panic T'
  | PastLen => after R (let* _ := x.1 in Ok SawNothing, mkPst x.2.1 (<[i := (mt, x.2.2)]> (p_objs P)) (p_held P)) PastLen T'
  | OutOfFuel => after R (let* _ := x.1 in Ok SawNothing, mkPst x.2.1 (<[i := (mt, x.2.2)]> (p_objs P)) (p_held P)) OutOfFuel T'
  end.
Proof.
  intros H Hn Ei r T' HP. unfold post in HP. destruct HP as [-> N].
  destruct N as (R' & O' & _ & _ & F). pose proof (holds_update _ _ _ _ _ _ _ _ _ H Ei R' O' F) as H'.
  unfold after. destruct x as [[[]| | |] [σ' h']]; cbn [fst snd rbind] in *; auto. apply wp_ret. eauto.
Qed.

Lemma alloc_zeros σ bs spare : alloc σ bs spare =
  (write (zeros σ (length bs + spare)) (pick (pick_array (chooser σ)) (dom (arrs σ))) 0 bs,
   mkSl (pick (pick_array (chooser σ)) (dom (arrs σ))) 0 (zlen bs) (zlen bs + Z.of_nat spare)).
Proof.
  unfold alloc, zeros, write, arr_of. cbn [arrs maps chooser]. rewrite lookup_insert. cbn [default id]. change (Z.to_nat 0) with 0%nat.
  unfold default, id. rewrite insert_insert. rewrite take_0, drop_replicate. cbn [app Nat.add]. do 5 f_equal. f_equal. lia.
Qed.

Lemma act_make T R P bs spare : holds T R P -> newer R -> wp T (c_act more grow R (AMake bs spare)) (after R (Recover.rexec (lift_grow grow) P (AMake bs spare))).
Proof.
  intros H Hn. cbn [c_act Recover.rexec pexec]. rewrite alloc_zeros. pose proof H as (R1 & _). apply wp_bind, wp_new. intros id Eid Hf.
  set (n := (length bs + spare)%nat) in *. destruct (rep_zeros al RO T (p_mem P) n id R1 Eid) as [Rz Ez]. rewrite <- Ez.
  pose proof (zeros_frame al RO (fun _ => False) T (p_mem P) n id R1 Eid) as Fz.
  assert (La : arrs (zeros (p_mem P) n) !! id = Some (replicate n 0)) by (unfold zeros; cbn [arrs]; rewrite <- Ez; apply lookup_insert).
  assert (Ll : zlen (arr_of (zeros (p_mem P) n) id) = Z.of_nat n) by (unfold arr_of; rewrite La; cbn; unfold zlen; rewrite replicate_length; reflexivity).
  assert (Hd : forall j, 0 <= j < Z.of_nat n -> Byte id j ∈ dom (new_cells KArray n id ∪ T) /\ Byte id j ∉ RO).
  { intros j Hj. split.
    - rewrite dom_union_L. apply elem_of_union_l, elem_of_dom. rewrite new_array_lookup. rewrite decide_True by auto. eauto.
    - intros HR. apply Hf. eapply elem_ids_dom; [exact (rep_ro _ _ _ _ R1 _ HR)|reflexivity]. }
  apply wp_bind. eapply wp_mono.
  { apply (wp_write al RO id bs). intros j Hj. apply Hd. unfold zlen in Hj. unfold n. lia. }
  cbv beta. intros r T' [-> W]. apply wp_ret. unfold after. cbn [fst snd].
  assert (Hle : 0 + zlen bs <= zlen (arr_of (zeros (p_mem P) n) id)) by (rewrite Ll; unfold zlen, n; lia).
  assert (R' : rep T' (write (zeros (p_mem P) n) id 0 bs)).
  { eapply rep_wrote; [exact Rz|eauto|lia|exact Hle|exact W]. }
  assert (F' : frame (fun _ => False) T (p_mem P) T' (write (zeros (p_mem P) n) id 0 bs)).
  { eapply frame_trans; [exact Fz|]. apply wrote_frame; [exact W|lia|exact Hle]. }
  pose proof (holds_mem _ _ _ _ _ H R' F') as H'.
  eexists. split; [reflexivity|]. split; [|exact Hn].
  apply (holds_hold T' R (mkPst (write (zeros (p_mem P) n) id 0 bs) (p_objs P) (p_held P)) _ H'). cbn [p_mem]. split.
  - unfold swf. cbn [sarr soff slen scap]. rewrite (write_insert _ _ _ _ _ La). eexists. split; [apply lookup_insert|].
    change (Z.to_nat 0) with 0%nat. rewrite overw_replicate by (unfold n; lia). unfold zlen. rewrite app_length, replicate_length. unfold n. lia.
  - intros a j Hw. destruct W as [W1 _]. rewrite W1. cbn in Hw. destruct Hw as [-> Hw]. apply Hd. unfold zlen, n in *. lia.
Qed.

Lemma act_write T R P k j b : holds T R P -> newer R -> allowed P (AWrite k j b) -> wp T (c_act more grow R (AWrite k j b)) (after R (Recover.rexec (lift_grow grow) P (AWrite k j b))).
Proof.
  intros H Hn [V Ha]. cbn [c_act Recover.rexec pexec]. apply (with_held T R P k _ _ H V). destruct (p_held P !! k) as [s|] eqn:Ek; cbn [of_opt rbind]; [|split; [reflexivity|exact H]].
  intros K. specialize (Ha _ eq_refl). destruct s as [s|]; cbn [h_write rbind]; [|split; [reflexivity|exact H]].
  destruct ((0 <=? j) && (j <? slen s)) eqn:Ej; cbn [rbind]; [|split; [reflexivity|exact H]].
  destruct K as [Ks Kw]. pose proof H as (R1 & _). destruct Ks as (l & La & Hs).
  assert (Hw : in_window (Some s) (sarr s) (soff s + j)) by (split; [reflexivity|lia]).
  assert (W : wrote (sarr s) (soff s + j) [b] T (<[Byte (sarr s) (soff s + j) := Num b]> T)).
  { split_and!.
    - rewrite dom_insert_L. apply Kw in Hw. set_solver.
    - intros j2 Hj2. unfold zlen in Hj2. cbn in Hj2. replace j2 with (soff s + j) by lia. rewrite Z.sub_diag. apply lookup_insert.
    - intros l2 Hl2. apply lookup_insert_ne. intros <-. eapply Hl2; [|reflexivity]. unfold zlen. cbn. lia. }
  assert (Hle : soff s + j + zlen [b] <= zlen (arr_of (p_mem P) (sarr s))) by (unfold arr_of; rewrite La; cbn; unfold zlen in *; cbn; lia).
  apply wp_bind, wp_store; [apply Kw, Hw|apply Ha, Hw|]. apply wp_ret. unfold after. cbn [fst snd]. eexists. split; [reflexivity|]. split; [|exact Hn].
  apply (holds_mem _ _ _ _ _ H).
  - eapply rep_wrote; [exact R1|eauto|lia|exact Hle|exact W].
  - apply wrote_frame; [exact W|lia|exact Hle].
Qed.

Lemma act_extend T R P k x : holds T R P -> newer R -> allowed P (AExtend k x) -> wp T (c_act more grow R (AExtend k x)) (after R (Recover.rexec (lift_grow grow) P (AExtend k x))).
Proof.
  intros H Hn [V Ha]. cbn [c_act Recover.rexec pexec]. apply (with_held T R P k _ _ H V). destruct (p_held P !! k) as [s|] eqn:Ek; cbn [of_opt rbind]; [|split; [reflexivity|exact H]].
  intros K. pose proof H as (R1 & _). apply wp_bind. eapply wp_mono; [apply (wp_append al RO T (p_mem P) grow s (Scratch x)); [exact R1|exact K|exact (Ha _ eq_refl)|exact I]|].
  cbv beta. cbn [src_bytes]. intros r T'. destruct (h_append (lift_grow grow) (p_mem P) s x) as [σ' s']. intros (-> & R' & F' & K' & _). apply wp_ret. unfold after. cbn [fst snd].
  eexists. split; [reflexivity|]. split; [|exact Hn]. apply (holds_hold T' R (mkPst σ' (p_objs P) (p_held P))); [|exact K']. apply (holds_mem _ _ _ _ _ H R' F').
Qed.

Lemma act_new T R P n reps : holds T R P -> newer R -> wp T (c_act more grow R (ANew n reps)) (after R (Recover.rexec (lift_grow grow) P (ANew n reps))).
Proof.
  intros H Hn. cbn [c_act Recover.rexec pexec]. apply wp_bind, wp_new. intros o Eo Hf. pose proof H as (R1 & _). apply wp_ret. unfold after. cbn [fst snd].
  eexists. split; [reflexivity|].
  apply (holds_new T R P (mkMtype n reps) o _ (mkH None (replicate n 0) None) H Hn Hf); [apply rep_new_struct; assumption| |apply new_struct_frame].
  split; [|split; [apply knows_none|exact I]]. cbn [alen].
  assert (L : forall l w, new_cells KStruct n o !! l = Some w -> (new_cells KStruct n o ∪ T) !! l = Some w) by (intros l w Hw; apply lookup_union_Some_raw; left; exact Hw).
  split_and!.
  - apply L. rewrite new_struct_lookup, decide_True by reflexivity. reflexivity.
  - apply L. rewrite new_struct_lookup, decide_True by reflexivity. reflexivity.
  - apply replicate_length.
  - intros i x Hx. cbn [h_a] in Hx. apply lookup_replicate in Hx as [-> Hi]. apply L. rewrite new_struct_lookup, decide_True by auto. reflexivity.
Qed.

Lemma act_copy T R P i : holds T R P -> newer R -> allowed P (ACopy i) -> wp T (c_act more grow R (ACopy i)) (after R (Recover.rexec (lift_grow grow) P (ACopy i))).
Proof.
  intros H Hn U. cbn [c_act Recover.rexec pexec]. apply (with_obj T R P i _ _ H U). destruct (objs R !! i) as [[mt o]|] eqn:Ei, (p_objs P !! i) as [[mt' h]|] eqn:Ej; cbn [of_opt rbind]; try exact I; [|split; [reflexivity|exact H]].
  intros -> O. apply wp_bind, wp_new. intros o2 Eo Hf. pose proof H as (R1 & _). set (n := alen mt) in *.
  assert (Ne : o <> o2). { intros ->. apply Hf, elem_ids. destruct O as ((O1 & _) & _). eauto. }
  pose proof (new_struct_frame T (p_mem P) n o2) as F1. pose proof (own_frame_struct _ _ _ _ _ _ o h F1 Ne O) as O1.
  pose proof (rep_new_struct T (p_mem P) n o2 R1 Hf) as R2.
  assert (L : forall l w, new_cells KStruct n o2 !! l = Some w -> (new_cells KStruct n o2 ∪ T) !! l = Some w) by (intros l w Hw; apply lookup_union_Some_raw; left; exact Hw).
  apply wp_bind. eapply wp_mono.
  { apply (wp_copy_struct n o o2 h _ (p_mem P) Ne R2 (proj1 O1)); [apply (fresh_free T (p_mem P)); assumption|]. split_and!.
    - apply L. rewrite new_struct_lookup, decide_True by reflexivity. reflexivity.
    - apply L. rewrite new_struct_lookup, decide_True by reflexivity. reflexivity.
    - apply replicate_length.
    - intros i2 x Hx. cbn [h_a] in Hx. apply lookup_replicate in Hx as [-> Hi]. apply L. rewrite new_struct_lookup, decide_True by auto. reflexivity. }
  cbv beta. intros r T' (-> & O2 & Hd & Hl). apply wp_ret. unfold after. cbn [fst snd]. eexists. split; [reflexivity|].
  assert (F2 : frame (fun x => x = o2) T (p_mem P) T' (p_mem P)).
  { eapply frame_trans; [exact F1|]. split; [rewrite Hd; reflexivity|]. split; [apply grows_refl|]. intros l o3 Hb Hne. apply Hl. rewrite Hb. congruence. }
  apply (holds_new T R P mt o2 _ h H Hn Hf); [| |exact F2].
  - eapply rep_same; [exact R2|exact Hd|]. intros l Hb. apply Hl. intros E. rewrite E in Hb. exact (Hb eq_refl).
  - split; [exact O2|]. destruct O as (_ & K & M). split; [eapply knows_frame; eassumption|eapply has_map_dom; [exact (proj1 F2)|exact M]].
Qed.

(** Calls that write to a struct. *)
Lemma now_start b T R P i mt o h : holds T R P -> newer R -> objs R !! i = Some (mt, o) -> p_objs P !! i = Some (mt, h) ->
  own T (p_mem P) (alen mt) o h -> free_struct i -> free_table P i -> (b = true -> writable (h_buf h)) -> now al RO T (p_mem P) b (alen mt) o T (p_mem P) h.
Proof.
  intros H Hn Ei Ej O F1 F2 W. split; [apply H|]. split; [exact O|]. split; [eapply free_mine; eassumption|]. split; [exact W|]. apply frame_refl.
Qed.
Lemma act_set T R P i f ty v : holds T R P -> newer R -> allowed P (ASet i f ty v) -> wp T (c_act more grow R (ASet i f ty v)) (after R (Recover.rexec (lift_grow grow) P (ASet i f ty v))).
Proof.
  intros H Hn (U & F1 & F2 & W). cbn [c_act Recover.rexec]. apply (with_obj T R P i _ _ H U). destruct (objs R !! i) as [[mt o]|] eqn:Ei, (p_objs P !! i) as [[mt' h]|] eqn:Ej; try exact I; [|split; [reflexivity|exact H]].
  intros -> O. apply wp_bind. eapply wp_mono; [apply (wp_set al RO T (p_mem P) grow ty); eapply now_start; try eassumption; intros _; exact (W _ _ Ej)|].
  apply after_post; assumption.
Qed.
Lemma act_setslice T R P i f k : holds T R P -> newer R -> allowed P (ASetSlice i f k) -> wp T (c_act more grow R (ASetSlice i f k)) (after R (Recover.rexec (lift_grow grow) P (ASetSlice i f k))).
Proof.
  intros H Hn (U & V & F1 & F2 & W). cbn [c_act Recover.rexec]. apply (with_obj T R P i _ _ H U). destruct (objs R !! i) as [[mt o]|] eqn:Ei, (p_objs P !! i) as [[mt' h]|] eqn:Ej; try exact I; [|split; [reflexivity|exact H]].
  intros -> O. apply (with_held T R P k _ _ H V). destruct (p_held P !! k) as [s|] eqn:Ek; [|split; [reflexivity|exact H]]. intros K.
  apply wp_bind. eapply wp_mono; [apply (wp_set_view al RO T (p_mem P) grow); [eapply now_start; try eassumption; intros _; exact (W _ _ Ej)|exact K]|].
  apply after_post; assumption.
Qed.
Lemma act_append T R P i f k : holds T R P -> newer R -> allowed P (AAppend i f k) -> wp T (c_act more grow R (AAppend i f k)) (after R (Recover.rexec (lift_grow grow) P (AAppend i f k))).
Proof.
  intros H Hn (U & V & F1 & F2 & W). cbn [c_act Recover.rexec]. apply (with_obj T R P i _ _ H U). destruct (objs R !! i) as [[mt o]|] eqn:Ei, (p_objs P !! i) as [[mt' h]|] eqn:Ej; try exact I; [|split; [reflexivity|exact H]].
  intros -> O. apply (with_held T R P k _ _ H V). destruct (p_held P !! k) as [s|] eqn:Ek; [|split; [reflexivity|exact H]]. intros K.
  apply wp_bind. eapply wp_mono; [apply (wp_append_bytes al RO T (p_mem P) grow); [eapply now_start; try eassumption; intros _; exact (W _ _ Ej)|exact K]|].
  apply after_post; assumption.
Qed.
Lemma act_decode T R P i k : holds T R P -> newer R -> allowed P (ADecode i k) -> wp T (c_act more grow R (ADecode i k)) (after R (Recover.rexec (lift_grow grow) P (ADecode i k))).
Proof.
  intros H Hn (U & V & F1 & F2). cbn [c_act Recover.rexec]. apply (with_obj T R P i _ _ H U). destruct (objs R !! i) as [[mt o]|] eqn:Ei, (p_objs P !! i) as [[mt' h]|] eqn:Ej; try exact I; [|split; [reflexivity|exact H]].
  intros -> O. apply (with_held T R P k _ _ H V). destruct (p_held P !! k) as [s|] eqn:Ek; [|split; [reflexivity|exact H]]. intros K.
  apply wp_bind. eapply wp_mono; [apply (wp_decode al RO T (p_mem P) more false); [eapply now_start; try eassumption; discriminate|exact K]|].
  cbv beta zeta. intros r T' [-> N]. set (x := r_decode mt (p_mem P) h s) in *. clearbody x.
  assert (Hh : x.1 <> OutOfFuel -> holds T' R (mkPst x.2.1 (<[i := (mt, x.2.2)]> (p_objs P)) (p_held P))).
  { intros Hx. destruct (N Hx) as (R' & O' & _ & _ & F). exact (holds_update _ _ _ _ _ _ _ _ _ H Ei R' O' F). }
  unfold after. destruct x as [[e| | |] [σ' h']]; cbn [fst snd rbind] in *.
  - apply wp_ret. eexists. split; [reflexivity|]. split; [apply Hh; discriminate|exact Hn].
  - split; [reflexivity|]. apply Hh. discriminate.
  - reflexivity.
  - reflexivity.
Qed.
Lemma act_reset T R P i k : holds T R P -> newer R -> allowed P (AReset i k) -> wp T (c_act more grow R (AReset i k)) (after R (Recover.rexec (lift_grow grow) P (AReset i k))).
Proof.
  intros H Hn (U & V & F1 & F2). cbn [c_act Recover.rexec pexec]. apply (with_obj T R P i _ _ H U). destruct (objs R !! i) as [[mt o]|] eqn:Ei, (p_objs P !! i) as [[mt' h]|] eqn:Ej; cbn [of_opt rbind]; try exact I; [|split; [reflexivity|exact H]].
  intros -> O. apply (with_held T R P k _ _ H V). destruct (p_held P !! k) as [s|] eqn:Ek; cbn [of_opt rbind]; [|split; [reflexivity|exact H]]. intros K.
  apply wp_bind. eapply wp_mono; [apply (wp_reset al RO T (p_mem P) false _ _ _ (p_mem P) h); [eapply now_start; try eassumption; discriminate|exact K]|].
  cbv beta. intros r T'. unfold h_reset. destruct (0 <? hlen s).
  - intros [-> ->]. split; [reflexivity|exact H].
  - cbn [rbind]. set (y := put_offs _ _ _). destruct y as [σ' h']. intros [-> (R' & O' & _ & _ & F)]. apply wp_ret. unfold after. cbn [fst snd rbind].
    eexists. split; [reflexivity|]. split; [|exact Hn]. exact (holds_update _ _ _ _ _ _ _ _ _ H Ei R' O' F).
Qed.

(** Calls that read. *)
Lemma slice_at_knows T σ n o h f d : own T σ n o h -> slice_at σ h f = Ok (Some d) -> knows T σ d.
Proof.
  intros (_ & K & _). unfold slice_at, with_offset. destruct (offsets_get _ _) as [[x [|]]| | |]; cbn [rbind]; try discriminate.
  destruct (h_from (h_buf h) x) as [b| | |]; cbn [rbind]; try discriminate. destruct (uvarint _). destruct (h_range (h_buf h) _ _) as [d2| | |] eqn:E; cbn [rbind]; try discriminate.
  intros [= <-]. eapply knows_range; eassumption.
Qed.
Lemma knows_default T σ n o h f s : own T σ n o h -> slice_at σ h f = Ok s -> knows T σ (default None s).
Proof. intros O E. destruct s as [d|]; [eapply slice_at_knows; eassumption|apply knows_none]. Qed.
Lemma get_knows ty T σ n o h f : own T σ n o h -> match h_get ty σ h f with Ok (HStr s) | Ok (HBy s) => knows T σ s | _ => True end.
Proof.
  intros O. destruct ty; cbn [h_get]; unfold varint_at, fixed_at, with_offset;
    try (destruct (offsets_get _ _) as [[x [|]]| | |]; cbn [rbind]; try exact I; destruct (h_from _ _); cbn [rbind]; exact I);
    try (destruct (offsets_get _ _) as [[x [|]]| | |]; cbn [rbind]; try exact I; destruct (h_range _ _ _); cbn [rbind]; try exact I; destruct (le_uint32 _); exact I);
    try (destruct (offsets_get _ _) as [[x [|]]| | |]; cbn [rbind]; try exact I; destruct (h_range _ _ _); cbn [rbind]; try exact I; destruct (le_uint64 _); exact I);
    destruct (slice_at σ h f) as [s| | |] eqn:E; cbn [rbind]; try exact I; eapply knows_default; eassumption.
Qed.
Lemma knows_cap T σ s : knows T σ s -> knows T σ (option_map (fun s => mkSl (sarr s) (soff s) (slen s) (slen s)) s).
Proof.
  intros K. eapply knows_sub; [exact K| |]; destruct s as [s|]; cbn; try exact I.
  - destruct K as [(l & E & Hs) _]. exists l. split; [exact E|]. lia.
  - destruct K as [(l & E & Hs) _]. intros a j. cbn. lia.
  - intros a j [].
Qed.
Lemma act_get T R P i f ty : holds T R P -> newer R -> allowed P (AGet i f ty) -> wp T (c_act more grow R (AGet i f ty)) (after R (Recover.rexec (lift_grow grow) P (AGet i f ty))).
Proof.
  intros H Hn U. cbn [c_act Recover.rexec pexec]. apply (with_obj T R P i _ _ H U). destruct (objs R !! i) as [[mt o]|] eqn:Ei, (p_objs P !! i) as [[mt' h]|] eqn:Ej; cbn [of_opt rbind]; try exact I; [|split; [reflexivity|exact H]].
  intros -> O. eapply wp_seq; [apply (wp_get al RO ty T (p_mem P)); [apply H|exact O]|]. pose proof (get_knows ty _ _ _ _ _ f O) as G.
  destruct (h_get ty (p_mem P) h f) as [[v|s|s]| | |]; cbv beta iota; cbn [rbind]; try (apply wp_ret; unfold after; cbn [fst snd]; eexists; split; [reflexivity|]; split; [|exact Hn]).
  - exact H.
  - apply holds_hold; [exact H|]. apply knows_cap, G.
  - apply holds_hold; [exact H|exact G].
  - split; [reflexivity|exact H].
  - reflexivity.
  - reflexivity.
Qed.
Lemma act_iter T R P i f : holds T R P -> newer R -> allowed P (AIter i f) -> wp T (c_act more grow R (AIter i f)) (after R (Recover.rexec (lift_grow grow) P (AIter i f))).
Proof.
  intros H Hn U. cbn [c_act Recover.rexec pexec]. apply (with_obj T R P i _ _ H U). destruct (objs R !! i) as [[mt o]|] eqn:Ei, (p_objs P !! i) as [[mt' h]|] eqn:Ej; cbn [of_opt rbind]; try exact I; [|split; [reflexivity|exact H]].
  intros -> O. eapply wp_seq; [apply (wp_iter al RO T (p_mem P)); [apply H|exact O]|].
  destruct (h_iter (p_mem P) h f) as [s| | |] eqn:E; cbv beta iota; cbn [rbind]; [|split; [reflexivity|exact H]|reflexivity|reflexivity].
  apply wp_ret. unfold after. cbn [fst snd]. eexists. split; [reflexivity|]. split; [|exact Hn]. apply holds_hold; [exact H|].
  unfold h_iter, with_offset in E. destruct (offsets_get _ _) as [[x [|]]| | |]; cbn [rbind] in E; try discriminate.
  - destruct O as (_ & K & _). eapply knows_from; eassumption.
  - injection E as <-. apply knows_none.
Qed.
Lemma act_encode T R P i : holds T R P -> newer R -> allowed P (AEncode i) -> wp T (c_act more grow R (AEncode i)) (after R (Recover.rexec (lift_grow grow) P (AEncode i))).
Proof.
  intros H Hn U. cbn [c_act Recover.rexec pexec]. apply (with_obj T R P i _ _ H U). destruct (objs R !! i) as [[mt o]|] eqn:Ei, (p_objs P !! i) as [[mt' h]|] eqn:Ej; cbn [of_opt rbind]; try exact I; [|split; [reflexivity|exact H]].
  intros -> O. pose proof O as ((O1 & _) & K & _). eapply wp_seq; [apply wp_load_slice, O1|]. cbv beta iota. apply wp_ret. unfold after. cbn [fst snd].
  eexists. split; [reflexivity|]. split; [|exact Hn]. apply holds_hold; [exact H|exact K].
Qed.
Lemma act_cut T R P k lo hi : holds T R P -> newer R -> allowed P (ACut k lo hi) -> wp T (c_act more grow R (ACut k lo hi)) (after R (Recover.rexec (lift_grow grow) P (ACut k lo hi))).
Proof.
  intros H Hn V. cbn [c_act Recover.rexec pexec]. apply (with_held T R P k _ _ H V). destruct (p_held P !! k) as [s|] eqn:Ek; cbn [of_opt rbind]; [|split; [reflexivity|exact H]]. intros K.
  apply wp_lift. destruct (h_range s lo hi) as [d| | |] eqn:E; cbn [rbind]; [|split; [reflexivity|exact H]|reflexivity|reflexivity].
  apply wp_ret. unfold after. cbn [fst snd]. eexists. split; [reflexivity|]. split; [|exact Hn]. apply holds_hold; [exact H|]. eapply knows_range; eassumption.
Qed.
Lemma act_look T R P k : holds T R P -> newer R -> allowed P (ALook k) -> wp T (c_act more grow R (ALook k)) (after R (Recover.rexec (lift_grow grow) P (ALook k))).
Proof.
  intros H Hn V. cbn [c_act Recover.rexec pexec]. apply (with_held T R P k _ _ H V). destruct (p_held P !! k) as [s|] eqn:Ek; cbn [of_opt rbind]; [|split; [reflexivity|exact H]]. intros K.
  pose proof (hlen_nonneg _ _ (proj1 K)). pose proof (sbytes_length _ _ (proj1 K)) as El.
  eapply wp_seq; [apply wp_swap, (wp_bytes al RO T (p_mem P)); [apply H|exact K|lia]|]. cbv beta iota. rewrite take_ge by (unfold zlen in El; lia).
  apply wp_ret. unfold after. cbn [fst snd]. eexists. split; [reflexivity|]. split; [exact H|exact Hn].
Qed.
Lemma find_knows T σ it f rest msg : knows T σ it -> h_find σ it f = Ok (rest, msg) -> knows T σ rest /\ knows T σ msg.
Proof.
  intros K. unfold h_find. destruct it as [it|]; [|intros [= <- <-]; split; apply knows_none].
  destruct (uvarint _) as [len sz]. destruct (h_range _ _ _) as [m| | |] eqn:E; cbn [rbind]; try discriminate.
  destruct (find_pos _ _ _ _) as [[i|]| | |]; cbn [rbind]; try discriminate.
  - destruct (h_from _ i) as [r| | |] eqn:E2; cbn [rbind]; try discriminate. intros [= <- <-]. split; [eapply knows_from; eassumption|eapply knows_range; eassumption].
  - intros [= <- <-]. split; [apply knows_none|eapply knows_range; eassumption].
Qed.
Lemma act_next T R P k f : holds T R P -> newer R -> allowed P (ANext k f) -> wp T (c_act more grow R (ANext k f)) (after R (Recover.rexec (lift_grow grow) P (ANext k f))).
Proof.
  intros H Hn V. cbn [c_act Recover.rexec pexec]. apply (with_held T R P k _ _ H V). destruct (p_held P !! k) as [s|] eqn:Ek; cbn [of_opt rbind]; [|split; [reflexivity|exact H]]. intros K.
  eapply wp_seq; [apply (wp_find al RO T (p_mem P)); [apply H|exact K]|].
  destruct (h_find (p_mem P) s f) as [[rest msg]| | |] eqn:E; cbv beta iota; cbn [rbind]; [|split; [reflexivity|exact H]|reflexivity|reflexivity].
  destruct (find_knows _ _ _ _ _ _ K E) as [K1 K2].
  apply wp_ret. unfold after. cbn [fst snd]. eexists. split; [reflexivity|]. split; [|exact Hn]. destruct H as (R1 & HL & H2 & H3 & H4 & H5).
  split_and!; cbn [p_mem p_objs p_held objs held]; [exact R1|exact HL|exact H2|exact H3|rewrite H4; reflexivity|].
  intros k2 s2 Hs V2. apply lookup_app_Some in Hs as [Hs|[_ Hs]].
  - apply list_lookup_insert_Some in Hs as [(-> & <- & _)|[_ Hs]]; [exact K1|eauto].
  - apply list_lookup_singleton_Some in Hs as [_ <-]. exact K2.
Qed.

Theorem act_ok T R P a : holds T R P -> newer R -> allowed P a -> wp T (c_act more grow R a) (after R (Recover.rexec (lift_grow grow) P a)).
Proof.
  intros H Hn Ha. destruct a.
  - apply act_new; assumption.
  - apply act_copy; assumption.
  - apply act_make; assumption.
  - apply act_write; assumption.
  - apply act_extend; assumption.
  - apply act_cut; assumption.
  - apply act_look; assumption.
  - apply act_set; assumption.
  - apply act_setslice; assumption.
  - apply act_append; assumption.
  - apply act_get; assumption.
  - apply act_encode; assumption.
  - apply act_decode; assumption.
  - apply act_reset; assumption.
  - apply act_iter; assumption.
  - apply act_next; assumption.
Qed.

(** ** A whole program *)
Fixpoint keeps (P : pst) (acts : list act) : Prop :=
  match acts with
  | [] => True
  | a :: acts =>
    allowed P a /\
    match Recover.rexec (lift_grow grow) P a with (Ok _, P') | (Panic, P') => keeps P' acts | _ => True end
  end.

Theorem client_ok acts : forall T R P, holds T R P -> newer R -> keeps P acts ->
  wp T (c_client more grow R acts) (fun r T' =>
    let x := Recover.rrun (lift_grow grow) P acts in
    match x.2 with
    | Ok P' => exists R', r = Ok (x.1, R') /\ holds T' R' P' /\ newer R'
    | Panic => False
    | PastLen => r = PastLen
    | OutOfFuel => r = OutOfFuel
    end).
Proof.
  induction acts as [|a acts IH]; intros T R P H Hn Hk; cbn [c_client Recover.rrun].
  - apply wp_ret. cbn. eauto.
  - destruct Hk as [Ha Hk]. apply wp_catch. eapply wp_mono; [apply act_ok; eassumption|]. cbv beta. intros r T'. unfold after.
    destruct (Recover.rexec (lift_grow grow) P a) as [[o| | |] P']; cbn [fst snd].
    + intros (R' & -> & H' & Hn'). apply wp_bind. eapply wp_mono; [apply (IH _ _ _ H' Hn' Hk)|]. cbv beta zeta. intros r T2.
      destruct (Recover.rrun _ P' acts) as [l [P2| | |]]; cbn [fst snd]; [intros (R2 & -> & H2); apply wp_ret; eauto|intros []|intros ->; reflexivity|intros ->; reflexivity].
    + intros (-> & H'). apply wp_bind. eapply wp_mono; [apply (IH _ _ _ H' Hn Hk)|]. cbv beta zeta. intros r T2.
      destruct (Recover.rrun _ P' acts) as [l [P2| | |]]; cbn [fst snd]; [intros (R2 & -> & H2); apply wp_ret; eauto|intros []|intros ->; reflexivity|intros ->; reflexivity].
    + intros ->. apply wp_stop. reflexivity.
    + intros ->. apply wp_stop. reflexivity.
Qed.
End run.

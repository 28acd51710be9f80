(** * Programs over single accesses do what Heap.v says: bytes *)
From Verif Require Import GoBase Heap HeapFacts Access AccessFacts AccessApi.

(** ** What a program does alone *)
Section wp.
Context (al : kind -> gset nat -> nat) (RO : gset loc).
Definition wp {A} (T : heap) (p : prog A) (Q : res A -> heap -> Prop) : Prop :=
  match run al RO T p with Some (r, T') => Q r T' | None => False end.

Lemma wp_mono {A} T (p : prog A) (Q Q' : res A -> heap -> Prop) : wp T p Q -> (forall r T', Q r T' -> Q' r T') -> wp T p Q'.
Proof. unfold wp. destruct (run al RO T p) as [[r T']|]; auto. Qed.
Lemma wp_stop {A} T (r : res A) (Q : res A -> heap -> Prop) : Q r T -> wp T (Stop r) Q.
Proof. exact (fun H => H). Qed.
Lemma wp_ret {A} T (a : A) (Q : res A -> heap -> Prop) : Q (Ok a) T -> wp T (ret a) Q.
Proof. exact (fun H => H). Qed.
Lemma wp_catch {A B} (p : prog A) (f : res A -> prog B) (Q : res B -> heap -> Prop) : forall T, wp T p (fun r T' => wp T' (f r) Q) -> wp T (catch p f) Q.
Proof.
  unfold wp. induction p as [r|l k IH|l w k IH|kd n k IH]; intros T; cbn [catch run].
  - auto.
  - destruct (T !! l); [apply IH|auto].
  - destruct (T !! l); [|auto]. destruct (decide _); [auto|apply IH].
  - apply IH.
Qed.
Lemma wp_bind {A B} T (p : prog A) (f : A -> prog B) (Q : res B -> heap -> Prop) :
  wp T p (fun r T' => match r with Ok a => wp T' (f a) Q | Panic => Q Panic T' | PastLen => Q PastLen T' | OutOfFuel => Q OutOfFuel T' end) -> wp T (bind p f) Q.
Proof. intros H. apply wp_catch. eapply wp_mono; [exact H|]. intros [a| | |] T'; auto. Qed.
(** A program that succeeds, then another. *)
Lemma wp_then {A B} T (p : prog A) (f : A -> prog B) (Q : res B -> heap -> Prop) (R : A -> heap -> Prop) :
  wp T p (fun r T' => exists a, r = Ok a /\ R a T') -> (forall a T', R a T' -> wp T' (f a) Q) -> wp T (bind p f) Q.
Proof. intros H1 H2. apply wp_bind. eapply wp_mono; [exact H1|]. intros r T' (a & -> & H). auto. Qed.
Lemma wp_load {A} T l w (k : word -> prog A) (Q : res A -> heap -> Prop) : T !! l = Some w -> wp T (k w) Q -> wp T (Load l k) Q.
Proof. unfold wp. cbn. intros ->. auto. Qed.
Lemma wp_store T l w (Q : res unit -> heap -> Prop) : l ∈ dom T -> l ∉ RO -> Q (Ok tt) (<[l := w]> T) -> wp T (store l w) Q.
Proof. unfold wp, store. cbn. intros [x ->]%elem_of_dom Hn. rewrite decide_False by exact Hn. auto. Qed.
Lemma wp_new T kd n (Q : res nat -> heap -> Prop) : (forall id, id = pick (al kd) (ids kd T) -> id ∉ ids kd T -> Q (Ok id) (new_cells kd n id ∪ T)) -> wp T (new kd n) Q.
Proof. intros H. unfold wp, new. cbn. apply H; [reflexivity|apply pick_fresh]. Qed.
Lemma wp_lift {A B} T (r : res A) (f : A -> prog B) (Q : res B -> heap -> Prop) :
  match r with Ok a => wp T (f a) Q | Panic => Q Panic T | PastLen => Q PastLen T | OutOfFuel => Q OutOfFuel T end -> wp T (bind (Stop r) f) Q.
Proof. intros H. apply wp_bind, wp_stop. exact H. Qed.

(** ** The memory of Heap.v behind the locations a goroutine knows of *)
Record rep (T : heap) (σ : mem) : Prop := mkRep {
  rep_al : chooser σ = mkAllocator (al KArray) (al KMap);
  rep_arr : ids KArray T = dom (arrs σ);
  rep_map : ids KMap T = dom (maps σ);
  rep_byte : forall a j w, T !! Byte a j = Some w -> exists z, w = Num z /\ cell σ a j = Some z;
  rep_tab : forall l w, T !! Table l = Some w -> exists m, w = Tbl m /\ maps σ !! l = Some m;
  rep_ro : RO ⊆ dom T }.

(** A slice in memory the goroutine knows of, up to its capacity. *)
Definition knows (T : heap) (σ : mem) (s : option slice) : Prop :=
  swf σ s /\ forall a j, in_window s a j -> Byte a j ∈ dom T.
(** ... that it may write to. *)
Definition writable (s : option slice) : Prop := forall a j, in_window s a j -> Byte a j ∉ RO.

Definition grows (σ σ' : mem) : Prop := only_changes σ σ' (fun _ _ => True) (fun _ => True).
(** Nothing gets lost, and no struct is changed but those in [P]. *)
Definition frame (P : nat -> Prop) (T : heap) (σ : mem) (T' : heap) (σ' : mem) : Prop :=
  dom T ⊆ dom T' /\ grows σ σ' /\ forall l o, block l = (KStruct, o) -> ~ P o -> T' !! l = T !! l.

Lemma grows_refl σ : grows σ σ. Proof. apply only_refl. Qed.
Lemma grows_trans σ1 σ2 σ3 : grows σ1 σ2 -> grows σ2 σ3 -> grows σ1 σ3.
Proof. intros H1 H2. eapply only_trans; [exact H1|exact H2|auto|auto]. Qed.
Lemma grows_only σ σ' P Q : only_changes σ σ' P Q -> grows σ σ'.
Proof. intros H. eapply only_weaken; [exact H|auto|auto]. Qed.
Lemma frame_refl P T σ : frame P T σ T σ.
Proof. split; [reflexivity|]. split; [apply grows_refl|auto]. Qed.
Lemma frame_trans P T σ T1 σ1 T2 σ2 : frame P T σ T1 σ1 -> frame P T1 σ1 T2 σ2 -> frame P T σ T2 σ2.
Proof. intros (A1 & A2 & A3) (B1 & B2 & B3). split; [etransitivity; eassumption|]. split; [eapply grows_trans; eassumption|]. intros l o Hl Ho. rewrite (B3 l o Hl Ho). eauto. Qed.
Lemma frame_weaken (P P' : nat -> Prop) T σ T1 σ1 : (forall o, P o -> P' o) -> frame P T σ T1 σ1 -> frame P' T σ T1 σ1.
Proof. intros H (A1 & A2 & A3). split; [exact A1|]. split; [exact A2|]. intros l o Hl Ho. apply (A3 l o Hl). auto. Qed.
Lemma knows_frame P T σ T' σ' s : frame P T σ T' σ' -> knows T σ s -> knows T' σ' s.
Proof. intros (H1 & H2 & _) [K1 K2]. split; [eapply swf_frame; eassumption|]. intros a j Hj. apply H1. auto. Qed.
Lemma knows_sub T σ s d : knows T σ s -> swf σ d -> sub_window d s -> knows T σ d.
Proof. intros [K1 K2] Hd Hs. split; [exact Hd|]. intros a j Hj. auto. Qed.
Lemma writable_sub s d : writable s -> sub_window d s -> writable d.
Proof. intros W Hs a j Hj. auto. Qed.
Lemma knows_from T σ s i d : knows T σ s -> h_from s i = Ok d -> knows T σ d /\ sub_window d s.
Proof. intros K E. destruct (h_from_sub σ s i d (proj1 K) E) as [W S]. split; [exact (knows_sub _ _ _ _ K W S)|exact S]. Qed.
Lemma knows_range T σ s lo hi d : knows T σ s -> h_range s lo hi = Ok d -> knows T σ d /\ sub_window d s.
Proof. intros K E. destruct (h_range_sub σ s lo hi d (proj1 K) E) as (W & S & _). split; [exact (knows_sub _ _ _ _ K W S)|exact S]. Qed.
Lemma knows_none T σ : knows T σ None.
Proof. split; [exact I|]. intros a j []. Qed.
Lemma writable_none : writable None.
Proof. intros a j []. Qed.

Lemma elem_ids_dom kd T l id : l ∈ dom T -> block l = (kd, id) -> id ∈ ids kd T.
Proof. intros [w Hw]%elem_of_dom E. apply elem_ids. eauto. Qed.
Lemma ids_dom kd T T' : dom T' = dom T -> ids kd T' = ids kd T.
Proof. unfold ids. intros ->. reflexivity. Qed.

(** ** Bytes *)
Lemma load_byte T σ a j : rep T σ -> Byte a j ∈ dom T -> exists z, T !! Byte a j = Some (Num z) /\ cell σ a j = Some z.
Proof. intros R [w Hw]%elem_of_dom. destruct (rep_byte _ _ R _ _ _ Hw) as (z & -> & Hc). eauto. Qed.

Lemma cell_cons σ a pos z n : 0 <= pos -> cell σ a pos = Some z ->
  take (S n) (drop (Z.to_nat pos) (arr_of σ a)) = z :: take n (drop (Z.to_nat (pos + 1)) (arr_of σ a)).
Proof.
  intros Hp. unfold cell. destruct (Z.leb_spec 0 pos); [|lia]. intros Hc. rewrite (drop_S _ z) by exact Hc. cbn [firstn].
  replace (Z.to_nat (pos + 1)) with (S (Z.to_nat pos)) by lia. reflexivity.
Qed.

Lemma wp_read T σ a n : rep T σ -> forall pos, 0 <= pos -> (forall j, pos <= j < pos + Z.of_nat n -> Byte a j ∈ dom T) ->
  wp T (c_read a pos n) (fun r T' => T' = T /\ r = Ok (take n (drop (Z.to_nat pos) (arr_of σ a)))).
Proof.
  intros R. induction n as [|n IH]; intros pos Hp Hd; cbn [c_read].
  - apply wp_ret. split; [reflexivity|]. reflexivity.
  - destruct (load_byte T σ a pos R) as (z & Hz & Hc); [apply Hd; lia|].
    apply wp_bind. eapply wp_load; [exact Hz|]. apply wp_ret. cbn [as_num].
    apply wp_bind. eapply wp_mono; [apply (IH (pos + 1)); [lia|intros j Hj; apply Hd; lia]|]. cbv beta. intros r T' [-> ->]. apply wp_ret.
    split; [reflexivity|]. rewrite (cell_cons _ _ _ _ _ Hp Hc). reflexivity.
Qed.

Lemma wp_bytes T σ s n : rep T σ -> knows T σ s -> 0 <= n <= hlen s ->
  wp T (c_bytes s n) (fun r T' => T' = T /\ r = Ok (take (Z.to_nat n) (sbytes σ s))).
Proof.
  intros R [K1 K2] Hn. destruct s as [s|]; cbn [c_bytes].
  - destruct K1 as (l & Hl & H1 & H2 & H3). cbn [hlen] in Hn. eapply wp_mono; [apply (wp_read T σ); [exact R|lia|]|].
    + intros j Hj. apply K2. cbn. lia.
    + cbv beta. intros r T' [-> ->]. split; [reflexivity|]. f_equal. cbn [sbytes]. rewrite take_take. f_equal. lia.
  - apply wp_ret. split; [reflexivity|]. cbn. rewrite take_nil. reflexivity.
Qed.

Definition src_known (T : heap) (σ : mem) (v : src) : Prop := match v with Scratch _ => True | View s => knows T σ s end.
Lemma src_known_frame P T σ T' σ' v : frame P T σ T' σ' -> src_known T σ v -> src_known T' σ' v.
Proof. destruct v; [auto|]. apply knows_frame. Qed.
Lemma src_bytes_len T σ v : src_known T σ v -> zlen (src_bytes σ v) = src_len v.
Proof. destruct v as [bs|s]; [reflexivity|]. intros [K _]. exact (sbytes_length _ _ K). Qed.
Lemma src_len_nonneg T σ v : src_known T σ v -> 0 <= src_len v.
Proof. intros H. rewrite <- (src_bytes_len T σ v H). unfold zlen. lia. Qed.
Lemma wp_src T σ v n : rep T σ -> src_known T σ v -> 0 <= n <= src_len v ->
  wp T (c_src v n) (fun r T' => T' = T /\ r = Ok (take (Z.to_nat n) (src_bytes σ v))).
Proof. intros R K Hn. destruct v as [bs|s]; cbn [c_src src_bytes]; [apply wp_ret; auto|apply wp_bytes; assumption]. Qed.
Lemma wp_src_all T σ v : rep T σ -> src_known T σ v ->
  wp T (c_src v (src_len v)) (fun r T' => T' = T /\ r = Ok (src_bytes σ v)).
Proof.
  intros R K. pose proof (src_len_nonneg _ _ _ K). eapply wp_mono; [apply wp_src; [exact R|exact K|lia]|]. cbv beta. intros r T' [-> ->]. split; [reflexivity|].
  rewrite take_ge; [reflexivity|]. pose proof (src_bytes_len T σ v K) as E. unfold zlen in E. lia.
Qed.

(** ** Writing bytes *)
Definition wrote (a : nat) (pos : Z) (bs : list Z) (T T' : heap) : Prop :=
  dom T' = dom T /\
  (forall j, pos <= j < pos + zlen bs -> T' !! Byte a j = Num <$> bs !! Z.to_nat (j - pos)) /\
  forall l, (forall j, pos <= j < pos + zlen bs -> l <> Byte a j) -> T' !! l = T !! l.

Lemma wp_write a bs : forall T pos, (forall j, pos <= j < pos + zlen bs -> Byte a j ∈ dom T /\ Byte a j ∉ RO) ->
  wp T (c_write a pos bs) (fun r T' => r = Ok tt /\ wrote a pos bs T T').
Proof.
  induction bs as [|b bs IH]; intros T pos Hd; cbn [c_write].
  - apply wp_ret. split; [reflexivity|]. split; [reflexivity|]. unfold zlen. cbn. split; [lia|auto].
  - assert (Hz : zlen (b :: bs) = 1 + zlen bs) by (unfold zlen; cbn [length]; lia). assert (0 <= zlen bs) by (unfold zlen; lia).
    destruct (Hd pos) as [D1 D2]; [lia|].
    apply wp_bind, wp_store; [exact D1|exact D2|].
    eapply wp_mono; [apply IH|].
    + intros j Hj. destruct (Hd j) as [E1 E2]; [lia|]. split; [|exact E2]. rewrite dom_insert_L. set_solver.
    + cbv beta. intros r T' (-> & W1 & W2 & W3). split; [reflexivity|]. split; [rewrite W1, dom_insert_L; set_solver|]. split.
      * intros j Hj. destruct (decide (j = pos)) as [->|Hne].
        { rewrite W3 by (intros j Hj2 [=]; lia). rewrite lookup_insert. rewrite Z.sub_diag. reflexivity. }
        rewrite W2 by lia. replace (Z.to_nat (j - pos)) with (S (Z.to_nat (j - (pos + 1)))) by lia. reflexivity.
      * intros l Hl. rewrite W3 by (intros j Hj; apply Hl; lia). apply lookup_insert_ne. intros E. apply (Hl pos); [lia|auto].
Qed.

Lemma cell_write σ a pos bs a' j : 0 <= pos -> pos + zlen bs <= zlen (arr_of σ a) ->
  cell (write σ a pos bs) a' j = if decide (a' = a /\ pos <= j < pos + zlen bs) then bs !! Z.to_nat (j - pos) else cell σ a' j.
Proof.
  intros H1 H2. unfold cell, zlen in *. destruct (Z.leb_spec 0 j) as [Hj|Hj].
  - rewrite arr_of_write. destruct (decide (a = a')) as [->|Hne].
    + rewrite overw_lookup by lia. destruct (Nat.leb_spec (Z.to_nat pos) (Z.to_nat j)), (Nat.ltb_spec (Z.to_nat j) (Z.to_nat pos + length bs)); cbn [andb];
        destruct (decide _) as [D|D]; try reflexivity; try (exfalso; lia); try (exfalso; apply D; split; [reflexivity|lia]). f_equal. lia.
    + destruct (decide _) as [D|D]; [destruct D as [-> _]; contradiction|reflexivity].
  - destruct (decide _) as [D|D]; [lia|reflexivity].
Qed.

Lemma rep_wrote T σ a pos bs T' : rep T σ -> is_Some (arrs σ !! a) -> 0 <= pos -> pos + zlen bs <= zlen (arr_of σ a) -> wrote a pos bs T T' ->
  rep T' (write σ a pos bs).
Proof.
  intros [R1 R2 R3 R4 R5 R6] Ha Hp Hlen (W1 & W2 & W3). split.
  - exact R1.
  - rewrite (ids_dom _ _ _ W1), R2. unfold write. cbn [arrs]. rewrite dom_insert_L. apply elem_of_dom in Ha. set_solver.
  - rewrite (ids_dom _ _ _ W1). exact R3.
  - intros a' j w Hw. rewrite cell_write by assumption. destruct (decide _) as [[-> D]|D].
    + rewrite W2 in Hw by lia. destruct (bs !! Z.to_nat (j - pos)) as [z|]; [|discriminate]. injection Hw as <-. eauto.
    + rewrite W3 in Hw; [eauto|]. intros j2 Hj2 [= -> ->]. auto.
  - intros l w. rewrite W3 by discriminate. apply R5.
  - rewrite W1. exact R6.
Qed.
Lemma wrote_frame a pos bs T T' σ P : wrote a pos bs T T' -> 0 <= pos -> pos + zlen bs <= zlen (arr_of σ a) -> frame P T σ T' (write σ a pos bs).
Proof.
  intros (W1 & W2 & W3) Hp Hlen. split; [rewrite W1; reflexivity|]. split; [eapply grows_only, write_frame; assumption|].
  intros l o Hl _. apply W3. intros j _ ->. discriminate.
Qed.

(** ** copy *)
Lemma wp_copy T σ s i v : rep T σ -> knows T σ s -> writable s -> src_known T σ v ->
  wp T (c_copy s i v) (fun r T' =>
    match h_copy σ s i (src_bytes σ v) with
    | Ok (σ', n) => r = Ok n /\ rep T' σ' /\ frame (fun _ => False) T σ T' σ'
    | Panic => r = Panic /\ T' = T
    | _ => False
    end).
Proof.
  intros R K W V. unfold c_copy. apply wp_lift. unfold h_copy. destruct (h_from s i) as [d| | |] eqn:E; cbn [rbind];
    [|auto|exfalso; destruct s; cbn in E; destruct (_ : bool) in E; discriminate E..].
  destruct (knows_from _ _ _ _ _ K E) as [Kd Sd].
  destruct d as [d|]; [|apply wp_ret; split; [reflexivity|]; split; [exact R|apply frame_refl]].
  pose proof (src_len_nonneg _ _ _ V) as Hv. pose proof (src_bytes_len _ _ _ V) as Hl.
  destruct Kd as [(l & Ha & H1 & H2 & H3) Kd]. set (n := Z.min (slen d) (src_len v)).
  apply wp_bind. eapply wp_mono; [apply (wp_src T σ); [exact R|exact V|lia]|]. cbv beta. intros r T' [-> ->].
  rewrite Hl. fold n. assert (Hn : zlen (take (Z.to_nat n) (src_bytes σ v)) = n) by (unfold zlen in *; rewrite take_length; lia).
  apply wp_bind. eapply wp_mono; [apply wp_write|].
  - intros j Hj. rewrite Hn in Hj. assert (in_window (Some d) (sarr d) j) by (cbn; lia). split; [apply Kd; assumption|]. apply W, Sd. assumption.
  - cbv beta. intros r T' [-> Hw]. apply wp_ret. split; [reflexivity|].
    assert (Harr : arr_of σ (sarr d) = l) by (unfold arr_of; rewrite Ha; reflexivity).
    split; [eapply rep_wrote; [exact R|eauto|lia|rewrite Harr, Hn; lia|exact Hw]|].
    eapply wrote_frame; [exact Hw|lia|rewrite Harr, Hn; lia].
Qed.

(** ** New memory *)
Lemma new_array_lookup n id l : new_cells KArray n id !! l =
  match l with
  | Made k a => if decide (k = KArray /\ a = id) then Some (Num 0) else None
  | Byte a j => if decide (a = id /\ 0 <= j < Z.of_nat n) then Some (Num 0) else None
  | _ => None
  end.
Proof.
  unfold new_cells, new_list. rewrite ?list_to_map_cons. destruct (decide (l = Made KArray id)) as [->|Hne].
  { rewrite lookup_insert. rewrite decide_True by auto. reflexivity. }
  rewrite lookup_insert_ne by congruence.
  assert (Hl : forall w, (list_to_map (map (fun j => (Byte id (Z.of_nat j), Num 0)) (seq 0 n)) : heap) !! l = Some w <->
     exists j, l = Byte id (Z.of_nat j) /\ (j < n)%nat /\ w = Num 0).
  { intros w. rewrite <- elem_of_list_to_map.
    - rewrite elem_of_list_In, in_map_iff. split.
      + intros (j & [= <- <-] & Hj). apply in_seq in Hj. exists j. split; [reflexivity|]. split; [lia|reflexivity].
      + intros (j & -> & Hj & ->). exists j. split; [reflexivity|]. apply in_seq. lia.
    - change (NoDup ((fst <$> ((fun j => (Byte id (Z.of_nat j), Num 0)) <$> seq 0 n)) : list loc)). rewrite <- list_fmap_compose. apply NoDup_fmap_2_strong; [|apply NoDup_ListNoDup, seq_NoDup].
      intros x y _ _. cbn. intros [= H]. lia. }
  match goal with |- ?x = _ => destruct x as [w|] eqn:Ew end.
  - destruct (proj1 (Hl w) eq_refl) as (j & -> & Hj & ->). rewrite decide_True; [reflexivity|]. split; [reflexivity|lia].
  - assert (Hno : forall j, (j < n)%nat -> l <> Byte id (Z.of_nat j)).
    { intros j Hj ->. assert (@None word = Some (Num 0)) by (apply Hl; eauto). discriminate. }
    destruct l; try reflexivity.
    + rewrite decide_False; [reflexivity|]. intros [-> ->]. exact (Hne eq_refl).
    + rewrite decide_False; [reflexivity|]. intros [-> Hj]. apply (Hno (Z.to_nat j)); [lia|]. f_equal. lia.
Qed.
Lemma new_map_lookup n id l : new_cells KMap n id !! l =
  if decide (l = Made KMap id) then Some (Num 0) else if decide (l = Table id) then Some (Tbl ∅) else None.
Proof.
  unfold new_cells, new_list. rewrite !list_to_map_cons. destruct (decide _) as [->|Hne]; [apply lookup_insert|]. rewrite lookup_insert_ne by congruence.
  destruct (decide _) as [->|Hne2]; [apply lookup_insert|]. rewrite lookup_insert_ne by congruence. reflexivity.
Qed.
Lemma new_struct_lookup n id l : new_cells KStruct n id !! l =
  match l with
  | Made k a => if decide (k = KStruct /\ a = id) then Some (Num 0) else None
  | Buf o => if decide (o = id) then Some (Hdr None) else None
  | Ref o => if decide (o = id) then Some (Ptr None) else None
  | Off o i => if decide (o = id /\ (i < n)%nat) then Some (Num 0) else None
  | _ => None
  end.
Proof.
  unfold new_cells, new_list. rewrite !list_to_map_cons. destruct (decide (l = Made KStruct id)) as [->|Hne0].
  { rewrite lookup_insert. rewrite decide_True by auto. reflexivity. }
  rewrite lookup_insert_ne by congruence. destruct (decide (l = Buf id)) as [->|Hne].
  { rewrite lookup_insert. rewrite decide_True by reflexivity. reflexivity. }
  rewrite lookup_insert_ne by congruence. destruct (decide (l = Ref id)) as [->|Hne2].
  { rewrite lookup_insert. rewrite decide_True by reflexivity. reflexivity. }
  rewrite lookup_insert_ne by congruence.
  assert (Hl : forall w, (list_to_map (map (fun i => (Off id i, Num 0)) (seq 0 n)) : heap) !! l = Some w <->
     exists i, l = Off id i /\ (i < n)%nat /\ w = Num 0).
  { intros w. rewrite <- elem_of_list_to_map.
    - rewrite elem_of_list_In, in_map_iff. split.
      + intros (j & [= <- <-] & Hj). apply in_seq in Hj. exists j. split; [reflexivity|]. split; [lia|reflexivity].
      + intros (j & -> & Hj & ->). exists j. split; [reflexivity|]. apply in_seq. lia.
    - change (NoDup ((fst <$> ((fun i => (Off id i, Num 0)) <$> seq 0 n)) : list loc)). rewrite <- list_fmap_compose. apply NoDup_fmap_2_strong; [|apply NoDup_ListNoDup, seq_NoDup].
      intros x y _ _. cbn. intros [= H]. lia. }
  match goal with |- ?x = _ => destruct x as [w|] eqn:Ew end.
  - destruct (proj1 (Hl w) eq_refl) as (j & -> & Hj & ->). rewrite decide_True; [reflexivity|]. split; [reflexivity|lia].
  - assert (Hno : forall i, (i < n)%nat -> l <> Off id i).
    { intros j Hj ->. assert (@None word = Some (Num 0)) by (apply Hl; eauto). discriminate. }
    destruct l; try reflexivity; (rewrite decide_False; [reflexivity|]); [intros [-> ->]; exact (Hne0 eq_refl)|congruence| |congruence].
    intros [-> Hj]. exact (Hno _ Hj eq_refl).
Qed.

(** What was known does not change when memory is added. *)
Lemma new_keeps kd n id T l w : id ∉ ids kd T -> T !! l = Some w -> (new_cells kd n id ∪ T) !! l = Some w.
Proof.
  intros Hf Hw. apply lookup_union_Some_raw. right. split; [|exact Hw]. destruct (new_cells kd n id !! l) eqn:E; [|reflexivity].
  exfalso. apply Hf, elem_ids. exists l, w. split; [exact Hw|]. exact (new_block _ _ _ _ _ E).
Qed.
Lemma new_other kd n id T l : block l <> (kd, id) -> (new_cells kd n id ∪ T) !! l = T !! l.
Proof. intros Hb. apply lookup_union_r. destruct (new_cells kd n id !! l) eqn:E; [|reflexivity]. apply new_block in E. contradiction. Qed.

(** An array of zeros. *)
Definition zeros (σ : mem) (n : nat) : mem :=
  mkMemory (<[pick (pick_array (chooser σ)) (dom (arrs σ)) := replicate n 0]> (arrs σ)) (maps σ) (chooser σ).
Lemma rep_zeros T σ n id : rep T σ -> id = pick (al KArray) (ids KArray T) -> rep (new_cells KArray n id ∪ T) (zeros σ n) /\
  id = pick (pick_array (chooser σ)) (dom (arrs σ)).
Proof.
  intros [R1 R2 R3 R4 R5 R6] Eid. assert (Hid : id = pick (pick_array (chooser σ)) (dom (arrs σ))) by (rewrite Eid, R1, R2; reflexivity).
  assert (Hf : arrs σ !! id = None) by (rewrite Hid; apply alloc_fresh). split; [|exact Hid]. unfold zeros. rewrite <- Hid. split; cbn [arrs maps chooser].
  - exact R1.
  - rewrite ids_new, R2, dom_insert_L. reflexivity.
  - rewrite ids_new_other by discriminate. exact R3.
  - intros a j w Hw. apply lookup_union_Some_raw in Hw as [Hw|[_ Hw]].
    + rewrite new_array_lookup in Hw. destruct (decide _) as [[-> Hj]|]; [|discriminate]. injection Hw as <-. exists 0. split; [reflexivity|].
      unfold cell, arr_of. cbn [arrs]. rewrite lookup_insert. cbn. destruct (Z.leb_spec 0 j); [|lia]. apply lookup_replicate_2. lia.
    + destruct (R4 _ _ _ Hw) as (z & -> & Hc). exists z. split; [reflexivity|]. rewrite <- Hc. unfold cell, arr_of. cbn [arrs].
      rewrite lookup_insert_ne; [reflexivity|]. intros <-. assert (id ∈ ids KArray T) as Hin by (apply (elem_ids_dom _ _ (Byte id j)); [apply elem_of_dom; eauto|reflexivity]).
      rewrite R2 in Hin. apply elem_of_dom in Hin. rewrite Hf in Hin. destruct Hin; discriminate.
  - intros l w. rewrite new_other by discriminate. apply R5.
  - rewrite dom_union_L. set_solver.
Qed.
Lemma zeros_frame P T σ n id : rep T σ -> id = pick (al KArray) (ids KArray T) -> frame P T σ (new_cells KArray n id ∪ T) (zeros σ n).
Proof.
  intros R E. split; [rewrite dom_union_L; set_solver|]. split.
  - unfold zeros. pose proof (alloc_fresh σ) as Hf. split_and!; cbn; eauto.
    + intros a l Ha. rewrite lookup_insert_ne by congruence. eauto.
    + intros a j _ Hn. exfalso. apply Hn. exact I.
  - intros l o Hl _. apply new_other. rewrite Hl. discriminate.
Qed.

(** Writing to the new array. *)
Lemma write_insert σ a l pos bs : arrs σ !! a = Some l -> arrs (write σ a pos bs) = <[a := overw l (Z.to_nat pos) bs]> (arrs σ).
Proof. intros H. unfold write, arr_of. rewrite H. reflexivity. Qed.

Lemma overw_replicate (bs : list Z) n : (length bs <= n)%nat -> overw (replicate n 0) 0 bs = bs ++ replicate (n - length bs) 0.
Proof. intros H. unfold overw. rewrite take_0. cbn [app Nat.add]. rewrite drop_replicate. reflexivity. Qed.
Lemma overw_second (xs ys : list Z) n : overw (xs ++ replicate n 0) (length xs) ys = (xs ++ ys) ++ replicate (n - length ys) 0.
Proof.
  unfold overw. rewrite take_app. rewrite <- (drop_drop _ (length ys) (length xs)). rewrite drop_app. rewrite drop_replicate. rewrite app_assoc. reflexivity.
Qed.

Definition lift_grow (grow : Z -> Z -> Z) : policy := fun _ s need => grow (match s with None => 0 | Some s => scap s end) need.

(** ** append *)
Lemma wp_append T σ grow s v : rep T σ -> knows T σ s -> writable s -> src_known T σ v ->
  wp T (c_append grow s v) (fun r T' =>
    let '(σ', s') := h_append (lift_grow grow) σ s (src_bytes σ v) in
    r = Ok s' /\ rep T' σ' /\ frame (fun _ => False) T σ T' σ' /\ knows T' σ' s' /\ writable s').
Proof.
  intros R K W V. pose proof (src_len_nonneg _ _ _ V) as Hv. pose proof (src_bytes_len _ _ _ V) as Hl. pose proof (hlen_nonneg _ _ (proj1 K)) as Hs0.
  unfold c_append, h_append. rewrite Hl. destruct (Z.leb_spec (hlen s + src_len v) (match s with None => 0 | Some s => scap s end)) as [Hc|Hc].
  - destruct s as [s|].
    + pose proof K as [(l & Ha & H1 & H2 & H3) Kd]. cbn [hlen] in *. assert (Harr : arr_of σ (sarr s) = l) by (unfold arr_of; rewrite Ha; reflexivity).
      apply wp_bind. eapply wp_mono; [apply (wp_src_all T σ); [exact R|exact V]|]. cbv beta. intros r T' [-> ->].
      apply wp_bind. eapply wp_mono; [apply wp_write|].
      * intros j Hj. assert (in_window (Some s) (sarr s) j) by (cbn; lia). split; [apply Kd; assumption|]. apply W. assumption.
      * cbv beta. intros r T' [-> Hw]. apply wp_ret. split; [reflexivity|].
        assert (Hfr : frame (fun _ => False) T σ T' (write σ (sarr s) (soff s + slen s) (src_bytes σ v))) by (eapply wrote_frame; [exact Hw|lia|rewrite Harr, Hl; lia]).
        split; [eapply rep_wrote; [exact R|eauto|lia|rewrite Harr, Hl; lia|exact Hw]|]. split; [exact Hfr|]. split.
        { eapply knows_frame; [exact Hfr|]. split; [exists l; cbn; split_and!; [exact Ha|lia..]|]. intros a j Hj. apply Kd. exact Hj. }
        intros a j Hj. apply W. exact Hj.
    + cbn [hlen] in Hc. apply wp_ret. split; [reflexivity|]. split; [exact R|]. split; [apply frame_refl|]. split; [apply knows_none|apply writable_none].
  - unfold lift_grow at 1. set (need := hlen s + src_len v) in *. set (cap := match s with None => 0 | Some s => scap s end) in *.
    set (e := Z.to_nat (grow cap need - need)). unfold alloc. cbv zeta.
    assert (Hnb : zlen (sbytes σ s ++ src_bytes σ v) = need). { unfold zlen. rewrite app_length. pose proof (sbytes_length _ _ (proj1 K)) as E1. unfold zlen in *. lia. }
    rewrite Hnb. apply wp_bind, wp_new. intros id Eid Hf.
    destruct (rep_zeros T σ (Z.to_nat need + e) id R Eid) as [R1 Hid]. rewrite <- Hid.
    pose proof (zeros_frame (fun _ => False) T σ (Z.to_nat need + e) id R Eid) as F1.
    set (T1 := new_cells KArray (Z.to_nat need + e) id ∪ T) in *. set (σ1 := zeros σ (Z.to_nat need + e)) in *.
    assert (Hno : arrs σ !! id = None) by (rewrite Hid; apply alloc_fresh).
    assert (H1a : arrs σ1 !! id = Some (replicate (Z.to_nat need + e) 0)) by (unfold σ1, zeros; cbn [arrs]; rewrite <- Hid; apply lookup_insert).
    assert (Hold : forall s2, knows T σ s2 -> sbytes σ1 s2 = sbytes σ s2).
    { intros [s2|] [K2 _]; [|reflexivity]. destruct K2 as (l2 & Hl2 & _). cbn [sbytes]. unfold arr_of. unfold σ1, zeros. cbn [arrs]. rewrite <- Hid. rewrite lookup_insert_ne by congruence. reflexivity. }
    assert (Hcells : forall j, 0 <= j < need + Z.of_nat e -> Byte id j ∈ dom T1 /\ Byte id j ∉ RO).
    { intros j Hj. assert (E : new_cells KArray (Z.to_nat need + e) id !! Byte id j = Some (Num 0)) by (rewrite new_array_lookup, decide_True; [reflexivity|split; [reflexivity|lia]]).
      split; [apply elem_of_dom; exists (Num 0); apply lookup_union_Some_raw; left; exact E|]. intros HR. apply (rep_ro _ _ R) in HR.
      apply Hf. eapply elem_ids_dom; [exact HR|reflexivity]. }
    apply wp_bind. eapply wp_mono; [apply (wp_bytes T1 σ1 s); [exact R1|eapply knows_frame; [exact F1|exact K]|lia]|]. cbv beta. intros r T' [-> ->].
    rewrite (Hold s K). rewrite take_ge by (pose proof (sbytes_length _ _ (proj1 K)) as E1; unfold zlen in E1; lia).
    apply wp_bind. eapply wp_mono; [apply wp_write|].
    { intros j Hj. rewrite (sbytes_length _ _ (proj1 K)) in Hj. apply Hcells. lia. }
    cbv beta. intros r T2 [-> Hw2].
    assert (B2 : 0 + zlen (sbytes σ s) <= zlen (arr_of σ1 id)). { unfold arr_of. rewrite H1a. cbn. unfold zlen at 2. rewrite replicate_length. rewrite (sbytes_length _ _ (proj1 K)). lia. }
    pose proof (rep_wrote T1 σ1 id 0 (sbytes σ s) T2 R1 ltac:(eauto) ltac:(lia) B2 Hw2) as R2.
    pose proof (wrote_frame id 0 (sbytes σ s) T1 T2 σ1 (fun _ => False) Hw2 ltac:(lia) B2) as F2. set (σ2 := write σ1 id 0 (sbytes σ s)) in *.
    assert (H2a : arrs σ2 !! id = Some (sbytes σ s ++ replicate (Z.to_nat need + e - length (sbytes σ s)) 0)).
    { unfold σ2. rewrite (write_insert _ _ _ _ _ H1a), lookup_insert. f_equal. apply overw_replicate. pose proof (sbytes_length _ _ (proj1 K)) as E1. unfold zlen in E1. lia. }
    assert (Hsame : forall a, a <> id -> arrs σ2 !! a = arrs σ !! a).
    { intros a Ha. unfold σ2. rewrite (write_insert _ _ _ _ _ H1a), lookup_insert_ne by congruence. unfold σ1, zeros. cbn [arrs]. rewrite <- Hid. apply lookup_insert_ne. congruence. }
    assert (V2 : src_known T2 σ2 v) by (eapply src_known_frame; [exact F2|]; eapply src_known_frame; [exact F1|exact V]).
    assert (Hsrc : src_bytes σ2 v = src_bytes σ v).
    { destruct v as [bs|[s2|]]; try reflexivity. destruct V as [(l2 & Hl2 & _) _]. cbn [src_bytes sbytes]. unfold arr_of. rewrite Hsame; [reflexivity|congruence]. }
    apply wp_bind. eapply wp_mono; [apply (wp_src_all T2 σ2); [exact R2|exact V2]|]. cbv beta. intros r T' [-> ->]. rewrite Hsrc.
    apply wp_bind. eapply wp_mono; [apply wp_write|].
    { intros j Hj. rewrite Hl in Hj. destruct (Hcells j) as [E1 E2]; [lia|]. split; [|exact E2]. rewrite (proj1 Hw2). exact E1. }
    cbv beta. intros r T3 [-> Hw3]. apply wp_ret.
    assert (B3 : hlen s + zlen (src_bytes σ v) <= zlen (arr_of σ2 id)).
    { unfold arr_of. rewrite H2a. cbn. unfold zlen at 2. rewrite app_length, replicate_length. pose proof (sbytes_length _ _ (proj1 K)) as E1. unfold zlen in *. lia. }
    pose proof (rep_wrote T2 σ2 id (hlen s) (src_bytes σ v) T3 R2 ltac:(eauto) Hs0 B3 Hw3) as R3.
    pose proof (wrote_frame id (hlen s) (src_bytes σ v) T2 T3 σ2 (fun _ => False) Hw3 Hs0 B3) as F3.
    set (σ' := mkMemory (<[id := (sbytes σ s ++ src_bytes σ v) ++ replicate e 0]> (arrs σ)) (maps σ) (chooser σ)).
    assert (Es : write σ2 id (hlen s) (src_bytes σ v) = σ').
    { unfold σ'. assert (Ea : arrs (write σ2 id (hlen s) (src_bytes σ v)) = <[id := (sbytes σ s ++ src_bytes σ v) ++ replicate e 0]> (arrs σ)).
      { rewrite (write_insert _ _ _ _ _ H2a). unfold σ2. rewrite (write_insert _ _ _ _ _ H1a). rewrite insert_insert. unfold σ1, zeros. cbn [arrs]. rewrite <- Hid, insert_insert.
        f_equal. pose proof (sbytes_length _ _ (proj1 K)) as E1. unfold zlen in E1. replace (Z.to_nat (hlen s)) with (length (sbytes σ s)) by lia. rewrite overw_second. f_equal. f_equal. unfold zlen in Hl. lia. }
      destruct (write σ2 id (hlen s) (src_bytes σ v)) as [X Y Z'] eqn:Ew. cbn [arrs] in Ea. rewrite Ea. f_equal; [|].
      - change Y with (maps (mkMemory X Y Z')). rewrite <- Ew. reflexivity.
      - change Z' with (chooser (mkMemory X Y Z')). rewrite <- Ew. reflexivity. }
    rewrite Es in R3, F3. split; [reflexivity|]. split; [exact R3|].
    pose proof (frame_trans _ _ _ _ _ _ _ F1 (frame_trans _ _ _ _ _ _ _ F2 F3)) as F. split; [exact F|]. split.
    + split.
      * exists ((sbytes σ s ++ src_bytes σ v) ++ replicate e 0). cbn [sarr soff slen scap]. split; [unfold σ'; cbn [arrs]; apply lookup_insert|]. unfold zlen in *. rewrite (app_length (sbytes σ s ++ src_bytes σ v)), replicate_length. lia.
      * intros a j [-> Hj]. cbn [soff scap] in Hj. destruct (Hcells j) as [E1 _]; [cbn in Hj; lia|]. rewrite (proj1 Hw3), (proj1 Hw2). exact E1.
    + intros a j [-> Hj]. cbn [soff scap sarr] in *. destruct (Hcells j) as [_ E2]; [lia|exact E2].
Qed.

(** ** Varints *)
Lemma wp_uvarint_loop T σ a n : rep T σ -> forall pos i x s, 0 <= pos -> (forall j, pos <= j < pos + Z.of_nat n -> Byte a j ∈ dom T) ->
  wp T (c_uvarint_loop n a pos i x s) (fun r T' => T' = T /\ r = Ok (uvarint_loop (take n (drop (Z.to_nat pos) (arr_of σ a))) i x s)).
Proof.
  intros R. induction n as [|n IH]; intros pos i x s Hp Hd; cbn [c_uvarint_loop].
  - apply wp_ret. split; reflexivity.
  - destruct (load_byte T σ a pos R) as (z & Hz & Hc); [apply Hd; lia|]. rewrite (cell_cons _ _ _ _ _ Hp Hc). cbn [uvarint_loop].
    apply wp_bind. eapply wp_load; [exact Hz|]. apply wp_ret. cbn [as_num].
    destruct (z <? 128); [destruct ((9 <? i) || ((i =? 9) && (1 <? z))); apply wp_ret; split; reflexivity|].
    apply IH; [lia|]. intros j Hj. apply Hd. lia.
Qed.
Lemma wp_uvarint T σ s : rep T σ -> knows T σ s -> wp T (c_uvarint s) (fun r T' => T' = T /\ r = Ok (uvarint (sbytes σ s))).
Proof.
  intros R [K1 K2]. destruct s as [s|]; cbn [c_uvarint]; [|apply wp_ret; split; reflexivity].
  destruct K1 as (l & Hl & H1 & H2 & H3). apply wp_uvarint_loop; [exact R|lia|]. intros j Hj. apply K2. cbn. lia.
Qed.
Lemma wp_varint T σ s : rep T σ -> knows T σ s -> wp T (c_varint s) (fun r T' => T' = T /\ r = Ok (varint (sbytes σ s))).
Proof.
  intros R K. unfold c_varint, varint. apply wp_bind. eapply wp_mono; [apply (wp_uvarint T σ); assumption|]. cbv beta. intros r T' [-> ->].
  destruct (uvarint (sbytes σ s)) as [ux n]. apply wp_ret. split; reflexivity.
Qed.
End wp.

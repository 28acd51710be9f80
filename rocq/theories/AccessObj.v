(** * Programs over single accesses do what Heap.v says: structs *)
From Verif Require Import GoBase Heap HeapFacts HeapSet HeapExec Fuel Recover RecoverFacts.
From Verif Require Import Access AccessFacts AccessApi AccessMem.

Lemma in_array_get a f : arr_get a f = if in_array (length a) f then of_opt (a !! Z.to_nat f) else Panic.
Proof. reflexivity. Qed.

Section obj.
Context (al : kind -> gset nat -> nat) (RO : gset loc).
Notation wp := (wp al RO).
Notation rep := (rep al RO).
Notation writable := (writable RO).

(** The struct [o] with [n] offsets holds [h]. *)
Definition orep (T : heap) (n o : nat) (h : hmsg) : Prop :=
  T !! Buf o = Some (Hdr (h_buf h)) /\ T !! Ref o = Some (Ptr (h_m h)) /\ length (h_a h) = n /\
  forall i x, h_a h !! i = Some x -> T !! Off o i = Some (Num x).
Definition has_map (T : heap) (σ : mem) (h : hmsg) : Prop :=
  match h_m h with None => True | Some l => exists m, maps σ !! l = Some m /\ Table l ∈ dom T end.
(** ... and the goroutine knows all it refers to. *)
Definition own (T : heap) (σ : mem) (n o : nat) (h : hmsg) : Prop := orep T n o h /\ knows T σ (h_buf h) /\ has_map T σ h.
Lemma rep_table T σ l m : rep T σ -> maps σ !! l = Some m -> Table l ∈ dom T -> T !! Table l = Some (Tbl m).
Proof. intros R Hm [w Hw]%elem_of_dom. destruct (rep_tab _ _ _ _ R _ _ Hw) as (m' & -> & E). congruence. Qed.
(** The goroutine may write to the struct and its map. *)
Definition mine (o : nat) (h : hmsg) : Prop :=
  (forall l, part_of l = Some o -> l ∉ RO) /\ (forall l, h_m h = Some l -> Table l ∉ RO).

Lemma own_frame_struct P T σ T' σ' n o h : frame P T σ T' σ' -> ~ P o -> own T σ n o h -> own T' σ' n o h.
Proof.
  intros F Hn ((O1 & O2 & O3 & O4) & K & M). split; [|split; [eapply knows_frame; eassumption|]].
  - destruct F as (_ & _ & F). split_and!.
    + rewrite (F (Buf o) o eq_refl Hn). exact O1.
    + rewrite (F (Ref o) o eq_refl Hn). exact O2.
    + exact O3.
    + intros i x Hx. rewrite (F (Off o i) o eq_refl Hn). auto.
  - unfold has_map in *. destruct (h_m h) as [l|]; [|exact I]. destruct M as (m & Hm & Hd). destruct F as (F0 & (_ & _ & _ & F) & _). destruct (F l ltac:(eauto)) as [m' Hm']. exists m'. split; [exact Hm'|]. apply F0, Hd.
Qed.

(** ** Reading a struct *)
Lemma wp_load_slice T o s : T !! Buf o = Some (Hdr s) -> wp T (load_slice (Buf o)) (fun r T' => r = Ok s /\ T' = T).
Proof. intros H. unfold load_slice. eapply wp_load; [exact H|]. apply wp_ret. split; reflexivity. Qed.
Lemma wp_load_ref T o s : T !! Ref o = Some (Ptr s) -> wp T (load_ref (Ref o)) (fun r T' => r = Ok s /\ T' = T).
Proof. intros H. unfold load_ref. eapply wp_load; [exact H|]. apply wp_ret. split; reflexivity. Qed.
Lemma wp_load_num T l x : T !! l = Some (Num x) -> wp T (load_num l) (fun r T' => r = Ok x /\ T' = T).
Proof. intros H. unfold load_num. eapply wp_load; [exact H|]. apply wp_ret. split; reflexivity. Qed.
Lemma wp_load_map T l m : T !! Table l = Some (Tbl m) -> wp T (load_map (Table l)) (fun r T' => r = Ok m /\ T' = T).
Proof. intros H. unfold load_map. eapply wp_load; [exact H|]. apply wp_ret. split; reflexivity. Qed.

(** A read, then the rest. *)
Lemma wp_seq {A B} T (p : prog A) (f : A -> prog B) Q r0 : wp T p (fun r T' => r = r0 /\ T' = T) ->
  match r0 with Ok a => wp T (f a) Q | Panic => Q Panic T | PastLen => Q PastLen T | OutOfFuel => Q OutOfFuel T end ->
  wp T (bind p f) Q.
Proof. intros H1 H2. apply wp_bind. eapply wp_mono; [exact H1|]. cbv beta iota. intros r T' [-> ->]. exact H2. Qed.
Lemma wp_swap {A} T (p : prog A) r0 : wp T p (fun r T' => T' = T /\ r = r0) -> wp T p (fun r T' => r = r0 /\ T' = T).
Proof. intros H. eapply wp_mono; [exact H|]. cbv beta iota. tauto. Qed.

Lemma wp_offsets_get T σ n o h f : rep T σ -> own T σ n o h ->
  wp T (c_offsets_get n o f) (fun r T' => r = offsets_get (hoffs σ h) f /\ T' = T).
Proof.
  intros R ((O1 & O2 & O3 & O4) & K & M). unfold c_offsets_get, offsets_get, hoffs. cbn [oa om]. rewrite in_array_get, O3.
  destruct (in_array n f) eqn:Ei; [|apply wp_stop; split; reflexivity].
  assert (Hi : (Z.to_nat f < length (h_a h))%nat) by (unfold in_array in Ei; lia). apply lookup_lt_is_Some in Hi as [x Hx]. rewrite Hx. cbn [of_opt rbind].
  eapply wp_seq; [apply wp_load_num, (O4 _ _ Hx)|]. cbv beta iota. destruct (negb (x =? offsetInMap)) eqn:E; [apply wp_ret; split; reflexivity|].
  eapply wp_seq; [apply wp_load_ref, O2|]. cbv beta iota. unfold has_map in M. destruct (h_m h) as [l|]; [|apply wp_ret; split; reflexivity].
  destruct M as (m & Hm & Hd). pose proof (rep_table _ _ _ _ R Hm Hd) as Ht. eapply wp_seq; [apply wp_load_map, Ht|]. cbv beta iota. rewrite Hm. apply wp_ret. split; reflexivity.
Qed.
Lemma wp_with_offset {A} T σ n o h f (dflt : A) k k' : rep T σ -> own T σ n o h ->
  (forall x, offsets_get (hoffs σ h) f = Ok (x, true) -> wp T (k x) (fun r T' => r = k' x /\ T' = T)) ->
  wp T (c_with_offset n o f dflt k) (fun r T' => r = with_offset (hoffs σ h) f dflt k' /\ T' = T).
Proof.
  intros R O Hk. unfold c_with_offset, with_offset. eapply wp_seq; [apply (wp_offsets_get T σ n o h); assumption|].
  destruct (offsets_get (hoffs σ h) f) as [[x [|]]| | |]; cbn [rbind]; auto. apply wp_ret. auto.
Qed.

Lemma wp_from_uvarint T σ s i : rep T σ -> knows T σ s -> forall {B} (f : Z * Z -> prog B) (Q : res B -> heap -> Prop),
  (match slice_from (sbytes σ s) i with Ok b => wp T (f (uvarint b)) Q | Panic => Q Panic T | PastLen => Q PastLen T | OutOfFuel => Q OutOfFuel T end) ->
  wp T (bind (Stop (h_from s i)) (fun b => bind (c_uvarint b) f)) Q.
Proof.
  intros R K B f Q H. apply wp_lift. pose proof (h_from_ok σ s i (proj1 K)) as E. destruct (slice_from (sbytes σ s) i) as [b| | |]; try contradiction; [|rewrite E; exact H].
  destruct E as (d & E & Eb & _). rewrite E. destruct (knows_from _ _ _ _ _ K E) as [Kd _].
  eapply wp_seq; [apply wp_swap, (wp_uvarint _ _ T σ); assumption|]. cbv beta iota. rewrite Eb. exact H.
Qed.

Lemma wp_old_len T σ n o h x typ : rep T σ -> own T σ n o h ->
  wp T (c_old_len o x typ) (fun r T' => r = old_len (sbytes σ (h_buf h)) x typ /\ T' = T).
Proof.
  intros R ((O1 & _) & K & _). unfold c_old_len, old_len.
  destruct (typ =? WireVarint).
  { eapply wp_seq; [apply wp_load_slice, O1|]. cbv beta iota. apply (wp_from_uvarint T σ); [exact R|exact K|].
    destruct (slice_from _ _); cbn [rbind]; [destruct (uvarint _); apply wp_ret|..]; auto. }
  destruct (typ =? WireFixed32); [apply wp_ret; auto|]. destruct (typ =? WireFixed64); [apply wp_ret; auto|].
  destruct (typ =? WireBytes); [|apply wp_stop; auto].
  eapply wp_seq; [apply wp_load_slice, O1|]. cbv beta iota. apply (wp_from_uvarint T σ); [exact R|exact K|].
  destruct (slice_from _ _); cbn [rbind]; [destruct (uvarint _); apply wp_ret|..]; auto.
Qed.

(** ** Getters *)
Lemma wp_varint_at T σ n o h f d k : rep T σ -> own T σ n o h ->
  wp T (c_varint_at n o f d k) (fun r T' => r = varint_at σ h f d (fun b => k (uvarint b).1) /\ T' = T).
Proof.
  intros R O. apply (wp_with_offset T σ n o h); [exact R|exact O|]. intros x _. destruct O as ((O1 & _) & K & _).
  eapply wp_seq; [apply wp_load_slice, O1|]. cbv beta iota. apply wp_lift. destruct (h_from (h_buf h) x) as [b| | |] eqn:E; cbn [rbind]; auto.
  destruct (knows_from _ _ _ _ _ K E) as [Kb _]. eapply wp_seq; [apply wp_swap, (wp_uvarint _ _ T σ); assumption|]. cbv beta iota. destruct (uvarint (sbytes σ b)). apply wp_ret. auto.
Qed.
Lemma wp_zigzag_at T σ n o h f k : rep T σ -> own T σ n o h ->
  wp T (c_zigzag_at n o f k) (fun r T' => r = varint_at σ h f (VNum 0) (fun b => k (varint b).1) /\ T' = T).
Proof.
  intros R O. apply (wp_with_offset T σ n o h); [exact R|exact O|]. intros x _. destruct O as ((O1 & _) & K & _).
  eapply wp_seq; [apply wp_load_slice, O1|]. cbv beta iota. apply wp_lift. destruct (h_from (h_buf h) x) as [b| | |] eqn:E; cbn [rbind]; auto.
  destruct (knows_from _ _ _ _ _ K E) as [Kb _]. eapply wp_seq; [apply wp_swap, (wp_varint _ _ T σ); assumption|]. cbv beta iota. destruct (varint (sbytes σ b)). apply wp_ret. auto.
Qed.
Lemma wp_fixed_at T σ n o h f w k : rep T σ -> own T σ n o h ->
  wp T (c_fixed_at n o f w k) (fun r T' => r = fixed_at σ h f w k /\ T' = T).
Proof.
  intros R O. apply (wp_with_offset T σ n o h); [exact R|exact O|]. intros x _. destruct O as ((O1 & _) & K & _).
  eapply wp_seq; [apply wp_load_slice, O1|]. cbv beta iota. apply wp_lift. destruct (h_range (h_buf h) x _) as [b| | |] eqn:E; cbn [rbind]; auto.
  destruct (knows_range _ _ _ _ _ _ K E) as [Kb _]. pose proof (hlen_nonneg _ _ (proj1 Kb)). pose proof (sbytes_length _ _ (proj1 Kb)) as El.
  eapply wp_seq; [apply wp_swap, (wp_bytes _ _ T σ); [exact R|exact Kb|lia]|]. cbv beta iota. rewrite take_ge by (unfold zlen in El; lia).
  apply wp_lift. destruct (k (sbytes σ b)); cbn [rbind]; auto. apply wp_ret. auto.
Qed.
Lemma wp_slice_at T σ n o h f : rep T σ -> own T σ n o h ->
  wp T (c_slice_at n o f) (fun r T' => r = slice_at σ h f /\ T' = T).
Proof.
  intros R O. apply (wp_with_offset T σ n o h); [exact R|exact O|]. intros x _. destruct O as ((O1 & _) & K & _).
  eapply wp_seq; [apply wp_load_slice, O1|]. cbv beta iota. apply wp_lift. destruct (h_from (h_buf h) x) as [b| | |] eqn:E; cbn [rbind]; auto.
  destruct (knows_from _ _ _ _ _ K E) as [Kb _]. eapply wp_seq; [apply wp_swap, (wp_uvarint _ _ T σ); assumption|]. cbv beta iota. destruct (uvarint (sbytes σ b)).
  apply wp_lift. destruct (h_range _ _ _); cbn [rbind]; auto. apply wp_ret. auto.
Qed.
Lemma wp_get ty T σ n o h f : rep T σ -> own T σ n o h -> wp T (c_get ty n o f) (fun r T' => r = h_get ty σ h f /\ T' = T).
Proof.
  intros R O. destruct ty; cbn [c_get h_get];
    try (apply (wp_varint_at T σ n o h); assumption); try (apply (wp_zigzag_at T σ n o h f); assumption); try (apply (wp_fixed_at T σ n o h); assumption).
  - eapply wp_seq; [apply (wp_slice_at T σ); eassumption|]. destruct (slice_at σ h f); cbn [rbind]; auto. apply wp_ret. auto.
  - eapply wp_seq; [apply (wp_slice_at T σ); eassumption|]. destruct (slice_at σ h f); cbn [rbind]; auto. apply wp_ret. auto.
Qed.
Lemma wp_iter T σ n o h f : rep T σ -> own T σ n o h -> wp T (c_iter n o f) (fun r T' => r = h_iter σ h f /\ T' = T).
Proof.
  intros R O. apply (wp_with_offset T σ n o h); [exact R|exact O|]. intros x _. destruct O as ((O1 & _) & K & _).
  eapply wp_seq; [apply wp_load_slice, O1|]. cbv beta iota. apply wp_stop. auto.
Qed.

(** ** FindNextField *)
Lemma wp_fieldDataSize T σ typ b : rep T σ -> knows T σ b ->
  wp T (c_fieldDataSize typ b) (fun r T' => r = fieldDataSize typ (sbytes σ b) /\ T' = T).
Proof.
  intros R K. unfold c_fieldDataSize, fieldDataSize.
  destruct (typ =? WireVarint).
  { eapply wp_seq; [apply wp_swap, (wp_uvarint _ _ T σ); assumption|]. cbv beta iota. destruct (uvarint _). apply wp_ret. auto. }
  destruct (typ =? WireFixed32); [apply wp_ret; auto|]. destruct (typ =? WireFixed64); [apply wp_ret; auto|].
  destruct (typ =? WireBytes); [|apply wp_stop; auto].
  eapply wp_seq; [apply wp_swap, (wp_uvarint _ _ T σ); assumption|]. cbv beta iota. destruct (uvarint _) as [x k]. destruct (k =? 0); apply wp_ret; auto.
Qed.

Lemma wp_find_loop T σ buf f fuel : rep T σ -> knows T σ buf -> forall idx,
  wp T (c_find_loop fuel buf f idx) (fun r T' => r = find_pos fuel (sbytes σ buf) f idx /\ T' = T).
Proof.
  intros R K. induction fuel as [|fuel IH]; intros idx; cbn [c_find_loop find_pos]; [apply wp_stop; auto|].
  rewrite (sbytes_length _ _ (proj1 K)). destruct (idx <? hlen buf); [|apply wp_ret; auto].
  apply (wp_from_uvarint T σ); [exact R|exact K|]. destruct (slice_from (sbytes σ buf) idx) as [b| | |]; cbn [rbind]; auto.
  destruct (uvarint b) as [tag size]. cbv zeta. destruct (_ =? f).
  - apply wp_lift. pose proof (h_from_ok σ buf (i64 (idx + size)) (proj1 K)) as E. destruct (slice_from _ _); cbn [rbind]; try contradiction.
    + destruct E as (d & -> & _). apply wp_ret. auto.
    + rewrite E. auto.
  - apply wp_lift. pose proof (h_from_ok σ buf (i64 (idx + size)) (proj1 K)) as E. destruct (slice_from _ _) as [b2| | |]; cbn [rbind]; try contradiction; [|rewrite E; auto].
    destruct E as (d & E & Eb & _). rewrite E. destruct (knows_from _ _ _ _ _ K E) as [Kd _].
    eapply wp_seq; [apply (wp_fieldDataSize T σ); assumption|]. rewrite Eb. destruct (fieldDataSize _ b2); cbn [rbind]; auto.
Qed.

Lemma find_pos_more buf f fuel : forall fuel' idx, (fuel <= fuel')%nat -> find_pos fuel buf f idx <> OutOfFuel -> find_pos fuel' buf f idx = find_pos fuel buf f idx.
Proof.
  induction fuel as [|fuel IH]; intros [|fuel'] idx Hle Hne; try (exfalso; apply Hne; reflexivity); [lia|]. cbn [find_pos] in *.
  destruct (_ <? _); [|reflexivity]. destruct (slice_from _ _) as [b| | |]; cbn [rbind] in *; try reflexivity. destruct (uvarint b) as [tag size]. cbv zeta in *.
  destruct (_ =? f); [reflexivity|]. destruct (slice_from _ _) as [b2| | |]; cbn [rbind] in *; try reflexivity.
  destruct (fieldDataSize _ b2); cbn [rbind] in *; try reflexivity. apply IH; [lia|exact Hne].
Qed.
Lemma find_pos_enough buf f idx more : find_pos (more + fuel_of buf) buf f idx = find_pos (fuel_of buf) buf f idx.
Proof.
  destruct (find_pos (fuel_of buf) buf f idx) as [x| | |] eqn:E; [rewrite <- E; apply find_pos_more; [lia|rewrite E; discriminate]..|].
  assert (E2 : find_loop (fuel_of buf) buf f idx = OutOfFuel) by (rewrite find_loop_pos, E; reflexivity).
  destruct (find_pos (more + fuel_of buf) buf f idx) as [x| | |] eqn:E3; [..|reflexivity]; exfalso;
  apply find_fuel_iff in E2; apply E2;
  (assert (Hn : Fuel.iter (find_next buf f) (more + fuel_of buf) idx = None);
   [destruct (Fuel.iter (find_next buf f) (more + fuel_of buf) idx) eqn:E4; [|reflexivity]; exfalso;
    assert (E5 : find_loop (more + fuel_of buf) buf f idx = OutOfFuel) by (apply find_fuel_iff; congruence);
    rewrite find_loop_pos, E3 in E5; cbn [rbind] in E5; unfold slice_from in E5; repeat case_match; cbn in E5; discriminate E5|
    pose proof (Fuel.iter_bound _ _ (find_next_range buf f) _ _ Hn) as Hb; eapply Fuel.iter_mono; [|exact Hb]; unfold fuel_of; lia]).
Qed.

Lemma wp_find T σ more it f : rep T σ -> knows T σ it -> wp T (c_find more it f) (fun r T' => r = h_find σ it f /\ T' = T).
Proof.
  intros R K. unfold c_find, h_find. destruct it as [s|]; [|apply wp_ret; auto]. set (it := Some s) in *.
  eapply wp_seq; [apply wp_swap, (wp_uvarint _ _ T σ); assumption|]. cbv beta iota. destruct (uvarint (sbytes σ it)) as [len sz].
  apply wp_lift. destruct (h_range it sz _) as [msg| | |]; cbn [rbind]; auto.
  eapply wp_seq; [apply (wp_find_loop T σ); assumption|]. unfold loops. pose proof (sbytes_length _ _ (proj1 K)) as El.
  replace (S (S (Z.to_nat (hlen it)))) with (fuel_of (sbytes σ it)) by (unfold fuel_of, zlen in *; lia). rewrite find_pos_enough.
  destruct (find_pos _ _ _ _) as [[i|]| | |]; cbn [rbind]; auto; [|apply wp_ret; auto]. apply wp_lift. destruct (h_from it i); cbn [rbind]; auto. apply wp_ret. auto.
Qed.
End obj.

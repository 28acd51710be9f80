(** * Programs over single accesses do what Heap.v says: calls that write *)
From Verif Require Import GoBase Heap HeapFacts HeapSet HeapExec Fuel Recover RecoverFacts.
From Verif Require Import Access AccessFacts AccessApi AccessMem AccessObj.

(** ** [put_offs] again *)
Definition fits (h : hmsg) (o : offsets) : Prop := is_Some (h_m h) -> is_Some (om o).
Lemma put_hoffs σ h o : fits h o -> hoffs (put_offs σ h o).1 (put_offs σ h o).2 = o.
Proof.
  unfold fits, put_offs, hoffs. destruct h as [b a [l|]], o as [a2 [m|]]; cbn; intros H.
  - rewrite lookup_insert. reflexivity.
  - destruct H as [? [=]]. eauto.
  - rewrite lookup_insert. reflexivity.
  - reflexivity.
Qed.
Lemma put_put σ h o1 o2 : fits h o1 -> (is_Some (om o1) -> is_Some (om o2)) ->
  put_offs (put_offs σ h o1).1 (put_offs σ h o1).2 o2 = put_offs σ h o2.
Proof.
  unfold fits, put_offs. destruct h as [b a [l|]], o1 as [a1 [m1|]], o2 as [a2 [m2|]]; cbn; intros H1 H2;
    try (destruct H1 as [? [=]]; eauto; fail); try (destruct H2 as [? [=]]; eauto; fail); try reflexivity; rewrite insert_insert; reflexivity.
Qed.
Lemma put_self T σ h : has_map T σ h -> put_offs σ h (hoffs σ h) = (σ, h).
Proof.
  unfold has_map, put_offs, hoffs. destruct h as [b a [l|]]; cbn; [|reflexivity]. intros (m & Hm & _). rewrite Hm. cbn. rewrite insert_id by exact Hm. destruct σ. reflexivity.
Qed.
Lemma put_arrs σ h o : arrs (put_offs σ h o).1 = arrs σ.
Proof. unfold put_offs. destruct (h_m h), (om o); reflexivity. Qed.
Lemma put_buf_put σ h o : h_buf (put_offs σ h o).2 = h_buf h.
Proof. unfold put_offs. destruct (h_m h), (om o); reflexivity. Qed.
Lemma sbytes_arrs σ σ' s : arrs σ' = arrs σ -> sbytes σ' s = sbytes σ s.
Proof. unfold sbytes, arr_of. intros ->. reflexivity. Qed.
Lemma offsets_set_om o f x o' : offsets_set o f x = Ok o' -> is_Some (om o) -> is_Some (om o').
Proof.
  unfold offsets_set. destruct (x <=? _).
  - destruct (arr_get _ _) as [p| | |]; cbn [rbind]; try discriminate. destruct (arr_set _ _ _); cbn [rbind]; try discriminate. intros [= <-] [m Hm]. cbn. rewrite Hm. destruct (_ =? _); cbn; eauto.
  - destruct (arr_set _ _ _); cbn [rbind]; try discriminate. intros [= <-] _. cbn. eauto.
Qed.

Section set.
Context (al : kind -> gset nat -> nat) (RO : gset loc) (T0 : heap) (σ0 : mem).
Notation wp := (wp al RO).
Notation rep := (rep al RO).
Notation writable := (writable RO).
Notation mine := (mine RO).

(** The state of a call on the struct [o] that began in [T0], [σ0]; with [b] the bytes
    of the buffer may be written to. *)
Definition now (b : bool) (n o : nat) (T : heap) (σ : mem) (h : hmsg) : Prop :=
  rep T σ /\ own T σ n o h /\ mine o h /\ (b = true -> writable (h_buf h)) /\ frame (fun x => x = o) T0 σ0 T σ.

Lemma now_known b n o T σ h v : now b n o T σ h -> src_known T0 σ0 v -> src_known T σ v.
Proof. intros (_ & _ & _ & _ & F) H. eapply src_known_frame; eassumption. Qed.
Lemma now_knows b n o T σ h s : now b n o T σ h -> knows T0 σ0 s -> knows T σ s.
Proof. intros (_ & _ & _ & _ & F) H. eapply knows_frame; eassumption. Qed.

(** Memory changed, the struct did not. *)
Lemma now_mem b n o T σ h T' σ' : now b n o T σ h -> rep T' σ' -> frame (fun _ => False) T σ T' σ' -> now b n o T' σ' h.
Proof.
  intros (R & O & M & W & F) R' F'. split; [exact R'|]. split; [eapply own_frame_struct; [exact F'|intros []|exact O]|]. split; [exact M|]. split; [exact W|].
  eapply frame_trans; [exact F|]. eapply frame_weaken; [|exact F']. intros ? [].
Qed.

Lemma rep_struct T σ l w o : rep T σ -> block l = (KStruct, o) -> l ∈ dom T -> rep (<[l := w]> T) σ.
Proof.
  intros [R1 R2 R3 R4 R5 R6] Hb Hd. assert (Hs : is_Some (T !! l)) by (apply elem_of_dom; exact Hd). split.
  - exact R1.
  - rewrite ids_insert by exact Hs. exact R2.
  - rewrite ids_insert by exact Hs. exact R3.
  - intros a j w2. rewrite lookup_insert_ne by (intros ->; discriminate). apply R4.
  - intros k w2. rewrite lookup_insert_ne by (intros ->; discriminate). apply R5.
  - rewrite dom_insert_L. set_solver.
Qed.
Lemma frame_struct T σ l w o : block l = (KStruct, o) -> l ∈ dom T -> frame (fun x => x = o) T σ (<[l := w]> T) σ.
Proof.
  intros Hb Hd. split; [rewrite dom_insert_L; set_solver|]. split; [apply grows_refl|]. intros l2 o2 Hl2 Hn. apply lookup_insert_ne. intros ->. congruence.
Qed.
Lemma knows_dom T T' σ s : dom T ⊆ dom T' -> knows T σ s -> knows T' σ s.
Proof. intros H [K1 K2]. split; [exact K1|]. intros a j Hj. apply H. auto. Qed.

Lemma has_map_dom T T' σ h : dom T ⊆ dom T' -> has_map T σ h -> has_map T' σ h.
Proof. unfold has_map. intros H. destruct (h_m h); [|auto]. intros (m & Hm & Hd). eauto. Qed.

(** *** Single stores *)
Lemma wp_put_buf b b' n o T σ h s : now b n o T σ h -> knows T σ s -> (b' = true -> writable s) ->
  wp T (store (Buf o) (Hdr s)) (fun r T' => r = Ok tt /\ now b' n o T' σ (put_buf h s)).
Proof.
  intros (R & ((O1 & O2 & O3 & O4) & K & HM) & M & W & F) Ks Ws. assert (Hd : Buf o ∈ dom T) by (apply elem_of_dom; eauto).
  apply wp_store; [exact Hd|apply (proj1 M); reflexivity|]. split; [reflexivity|].
  split; [eapply rep_struct; [exact R|reflexivity|exact Hd]|]. split; [split; [|split]|].
  - split; [apply lookup_insert|]. split; [rewrite lookup_insert_ne by discriminate; exact O2|]. split; [exact O3|]. intros i x Hx. rewrite lookup_insert_ne by discriminate. auto.
  - eapply knows_dom; [|exact Ks]. rewrite dom_insert_L. set_solver.
  - eapply has_map_dom; [|exact HM]. rewrite dom_insert_L. set_solver.
  - split; [exact M|]. split; [exact Ws|]. eapply frame_trans; [exact F|]. apply frame_struct; [reflexivity|exact Hd].
Qed.
Lemma wp_put_off b n o T σ h i x : now b n o T σ h -> (i < n)%nat ->
  wp T (store (Off o i) (Num x)) (fun r T' => r = Ok tt /\ now b n o T' σ (mkH (h_buf h) (<[i := x]> (h_a h)) (h_m h))).
Proof.
  intros (R & ((O1 & O2 & O3 & O4) & K & HM) & M & W & F) Hi. assert (is_Some (h_a h !! i)) as [y Hy] by (apply lookup_lt_is_Some; lia).
  assert (Hd : Off o i ∈ dom T) by (apply elem_of_dom; eauto).
  apply wp_store; [exact Hd|apply (proj1 M); reflexivity|]. split; [reflexivity|].
  split; [eapply rep_struct; [exact R|reflexivity|exact Hd]|]. split; [split; [|split]|].
  - split; [rewrite lookup_insert_ne by discriminate; exact O1|]. split; [rewrite lookup_insert_ne by discriminate; exact O2|]. split; [cbn; rewrite insert_length; exact O3|].
    cbn [h_a]. intros k z Hz. destruct (decide (k = i)) as [->|Hne].
    + rewrite list_lookup_insert in Hz by lia. injection Hz as ->. apply lookup_insert.
    + rewrite list_lookup_insert_ne in Hz by congruence. rewrite lookup_insert_ne by congruence. auto.
  - eapply knows_dom; [|exact K]. rewrite dom_insert_L. set_solver.
  - eapply has_map_dom; [|exact HM]. rewrite dom_insert_L. set_solver.
  - split; [exact M|]. split; [exact W|]. eapply frame_trans; [exact F|]. apply frame_struct; [reflexivity|exact Hd].
Qed.
Lemma wp_put_table b n o T σ h l m : now b n o T σ h -> h_m h = Some l ->
  wp T (store (Table l) (Tbl m)) (fun r T' => r = Ok tt /\ now b n o T' (mkMemory (arrs σ) (<[l := m]> (maps σ)) (chooser σ)) h).
Proof.
  intros (R & O & M & W & F) Hl. pose proof O as (_ & _ & HM). unfold has_map in HM. rewrite Hl in HM. destruct HM as (m0 & Hm0 & Hd).
  pose proof (rep_table _ _ _ _ _ _ R Hm0 Hd) as Ht.
  apply wp_store; [exact Hd|apply (proj2 M); exact Hl|]. split; [reflexivity|].
  assert (F1 : frame (fun _ => False) T σ (<[Table l := Tbl m]> T) (mkMemory (arrs σ) (<[l := m]> (maps σ)) (chooser σ))).
  { split; [rewrite dom_insert_L; set_solver|]. split.
    - split_and!; cbn; eauto; [intros k m2 _ Hn; exfalso; apply Hn; exact I|]. intros k Hk. destruct (decide (l = k)) as [->|Hne]; [rewrite lookup_insert; eauto|rewrite lookup_insert_ne by exact Hne; exact Hk].
    - intros l2 o2 Hb _. apply lookup_insert_ne. intros <-. discriminate. }
  eapply now_mem; [split_and!; [exact R|exact O|exact M|exact W|exact F]| |exact F1].
  destruct R as [R1 R2 R3 R4 R5 R6]. split; cbn [arrs maps chooser].
  - exact R1.
  - rewrite ids_insert by eauto. exact R2.
  - rewrite ids_insert by eauto. rewrite R3, dom_insert_L. apply elem_of_dom_2 in Hm0. set_solver.
  - intros a j w. rewrite lookup_insert_ne by discriminate. apply R4.
  - intros k w. destruct (decide (l = k)) as [->|Hne]; [rewrite !lookup_insert; intros [= <-]; eauto|]. rewrite lookup_insert_ne by congruence. rewrite lookup_insert_ne by exact Hne. apply R5.
  - rewrite dom_insert_L. set_solver.
Qed.
Lemma wp_new_map b n o T σ h : now b n o T σ h -> h_m h = None ->
  let l := pick (pick_map (chooser σ)) (dom (maps σ)) in
  wp T (bind (new KMap 0) (fun l => store (Ref o) (Ptr (Some l))))
    (fun r T' => r = Ok tt /\ now b n o T' (mkMemory (arrs σ) (<[l := ∅]> (maps σ)) (chooser σ)) (mkH (h_buf h) (h_a h) (Some l))).
Proof.
  intros (R & ((O1 & O2 & O3 & O4) & K & HM) & M & W & F) Hl l. apply wp_bind, wp_new. intros id Eid Hf.
  assert (Hid : id = l) by (unfold l; rewrite Eid; rewrite (rep_al _ _ _ _ R), (rep_map _ _ _ _ R); reflexivity). clearbody l. clear Eid. subst id.
  set (T1 := new_cells KMap 0 l ∪ T).
  assert (Hmap : maps σ !! l = None) by (apply not_elem_of_dom; rewrite <- (rep_map _ _ _ _ R); exact Hf).
  assert (Hk : forall x w, T !! x = Some w -> T1 !! x = Some w) by (intros x w; apply new_keeps; exact Hf).
  assert (Hd : Ref o ∈ dom T1) by (apply elem_of_dom; eauto).
  assert (HRl : forall x, x ∈ RO -> x <> Table l). { intros x Hx ->. apply Hf. eapply elem_ids_dom; [exact (rep_ro _ _ _ _ R _ Hx)|reflexivity]. }
  assert (R1 : rep T1 (mkMemory (arrs σ) (<[l := ∅]> (maps σ)) (chooser σ))).
  { destruct R as [R1 R2 R3 R4 R5 R6]. split; cbn [arrs maps chooser].
    - exact R1.
    - unfold T1. rewrite ids_new_other by discriminate. exact R2.
    - unfold T1. rewrite ids_new, R3, dom_insert_L. reflexivity.
    - intros a j w. unfold T1. rewrite new_other by discriminate. apply R4.
    - intros k w. destruct (decide (k = l)) as [->|Hne].
      + rewrite lookup_insert. unfold T1. intros Hw. apply lookup_union_Some_raw in Hw as [Hw|[Hw _]]; rewrite new_map_lookup, decide_False, decide_True in Hw by congruence; [|discriminate].
        injection Hw as <-. eauto.
      + rewrite lookup_insert_ne by congruence. unfold T1. rewrite new_other by (cbn; congruence). apply R5.
    - unfold T1. rewrite dom_union_L. set_solver. }
  assert (F1 : frame (fun _ => False) T σ T1 (mkMemory (arrs σ) (<[l := ∅]> (maps σ)) (chooser σ))).
  { split; [unfold T1; rewrite dom_union_L; set_solver|]. split.
    - split_and!; cbn; eauto; [intros k m2 _ Hn; exfalso; apply Hn; exact I|]. intros k Hk2. destruct (decide (l = k)) as [->|Hne]; [rewrite lookup_insert; eauto|rewrite lookup_insert_ne by exact Hne; exact Hk2].
    - intros l2 o2 Hb _. apply new_other. rewrite Hb. discriminate. }
  apply wp_store; [exact Hd|apply (proj1 M); reflexivity|]. split; [reflexivity|].
  split; [eapply rep_struct; [exact R1|reflexivity|exact Hd]|]. split; [split; [|split]|].
  - split; [rewrite lookup_insert_ne by discriminate; apply Hk, O1|]. split; [apply lookup_insert|]. split; [exact O3|]. intros i x Hx. rewrite lookup_insert_ne by discriminate. apply Hk. auto.
  - eapply knows_dom; [|eapply knows_frame; [exact F1|exact K]]. rewrite dom_insert_L. set_solver.
  - cbn. exists ∅. split; [apply lookup_insert|]. rewrite dom_insert_L. apply elem_of_union_r. unfold T1. rewrite dom_union_L. apply elem_of_union_l, elem_of_dom.
    match goal with |- is_Some ?x => change (is_Some (new_cells KMap 0 l !! Table l)) end. rewrite new_map_lookup, decide_False, decide_True by congruence. eauto.
  - split; [split; [exact (proj1 M)|]|].
    + cbn. intros k [= <-] HR. exact (HRl _ HR eq_refl).
    + split; [exact W|]. eapply frame_trans; [exact F|]. eapply frame_trans; [eapply frame_weaken; [|exact F1]; intros ? []|]. apply frame_struct; [reflexivity|exact Hd].
Qed.

(** *** offsets.go *)
Lemma wp_offsets_set b n o T σ h f x : now b n o T σ h ->
  wp T (c_offsets_set n o f x) (fun r T' =>
    match offsets_set (hoffs σ h) f x with
    | Ok o' => r = Ok tt /\ now b n o T' (put_offs σ h o').1 (put_offs σ h o').2
    | _ => r = Panic /\ T' = T
    end).
Proof.
  intros N. pose proof N as (R & ((O1 & O2 & O3 & O4) & K & HM) & M & W & F). unfold c_offsets_set, offsets_set, arr_set, hoffs. cbn [oa om]. rewrite in_array_get. unfold zlen. rewrite O3. fold (in_array n f).
  destruct (x <=? offsetMaxInArray) eqn:Ex; (destruct (in_array n f) eqn:Ei; [|apply wp_stop; cbn [rbind]; auto]); cbn [rbind];
  assert (Hi : (Z.to_nat f < length (h_a h))%nat) by (unfold in_array in Ei; lia); pose proof Hi as Hin; rewrite O3 in Hin; apply lookup_lt_is_Some in Hi as [y Hy].
  - rewrite Hy. cbn [of_opt rbind].
    eapply wp_seq; [apply wp_load_num, (O4 _ _ Hy)|]. cbv beta iota. destruct (y =? offsetInMap) eqn:Ey.
    + apply wp_bind. eapply wp_seq; [apply wp_load_ref, O2|]. cbv beta iota. unfold has_map in HM. destruct (h_m h) as [l|] eqn:El.
      * destruct HM as (m & Hm & Hd). pose proof (rep_table _ _ _ _ _ _ R Hm Hd) as Ht. eapply wp_seq; [apply wp_load_map, Ht|]. cbv beta iota.
        eapply wp_mono; [eapply wp_put_table; [exact N|exact El]|]. cbv beta. intros r T' [-> N1]. cbv beta iota.
        eapply wp_mono; [eapply wp_put_off; [exact N1|exact Hin]|]. cbv beta. intros r T2 [-> N2]. split; [reflexivity|].
        unfold put_offs. cbn [om oa]. rewrite El in *. rewrite Hm. exact N2.
      * apply wp_ret. eapply wp_mono; [eapply wp_put_off; [exact N|exact Hin]|]. cbv beta. intros r T2 [-> N2]. split; [reflexivity|].
        unfold put_offs. cbn [om oa]. rewrite El in *. exact N2.
    + apply wp_bind, wp_ret. eapply wp_mono; [eapply wp_put_off; [exact N|exact Hin]|]. cbv beta. intros r T2 [-> N2]. split; [reflexivity|].
      unfold put_offs. cbn [om oa]. unfold has_map in HM. destruct (h_m h) as [l|] eqn:El; [|exact N2]. destruct HM as (m & Hm & _). rewrite Hm. cbn [fst snd]. rewrite insert_id by exact Hm. destruct σ; exact N2.
  - apply wp_bind. eapply wp_mono; [eapply wp_put_off; [exact N|exact Hin]|]. cbv beta. intros r T2 [-> N2].
    pose proof N2 as (R2 & ((P1 & P2 & P3 & P4) & K2 & HM2) & _). cbn [h_m] in P2.
    eapply wp_seq; [apply wp_load_ref, P2|]. cbv beta iota. unfold has_map in HM. destruct (h_m h) as [l|] eqn:El.
    + apply wp_bind, wp_ret. eapply wp_seq; [apply wp_load_ref, P2|]. cbv beta iota. destruct HM as (m & Hm & _). destruct HM2 as (m2 & Hm2 & Hd2). pose proof (rep_table _ _ _ _ _ _ R2 Hm Hd2) as Ht. eapply wp_seq; [apply wp_load_map, Ht|]. cbv beta iota.
      eapply wp_mono; [eapply wp_put_table; [exact N2|reflexivity]|]. cbv beta. intros r T3 [-> N3]. split; [reflexivity|].
      unfold put_offs. cbn [om oa]. rewrite El. rewrite Hm. exact N3.
    + apply wp_bind. eapply wp_mono; [eapply wp_new_map; [exact N2|reflexivity]|]. cbv beta. intros r T3 [-> N3].
      set (l := pick (pick_map (chooser σ)) (dom (maps σ))) in *.
      pose proof N3 as (R3 & ((_ & Q2 & _) & _ & HM3) & _). cbn [h_m] in Q2. destruct HM3 as (m3 & Hm3 & Hd3).
      eapply wp_seq; [apply wp_load_ref, Q2|]. cbv beta iota. pose proof (rep_table _ _ _ _ _ ∅ R3 (lookup_insert _ _ _) Hd3) as Ht. eapply wp_seq; [apply wp_load_map, Ht|]. cbv beta iota.
      eapply wp_mono; [eapply wp_put_table; [exact N3|reflexivity]|]. cbv beta. intros r T4 [-> N4]. split; [reflexivity|].
      unfold put_offs. cbn [om oa]. rewrite El. fold l. cbn [maps arrs chooser fst snd] in *. rewrite insert_insert in N4. exact N4.
Qed.

(** [for i := range o.a { o.a[i] = 0 }] *)
Lemma wp_zero b n o k : forall i T σ h, now b n o T σ h -> (i + k = n)%nat ->
  wp T (c_zero k i o) (fun r T' => r = Ok tt /\ now b n o T' σ (mkH (h_buf h) (take i (h_a h) ++ map (fun _ => offsetUnset) (drop i (h_a h))) (h_m h))).
Proof.
  induction k as [|k IH]; intros i T σ h N Hi; cbn [c_zero]; pose proof N as (_ & ((_ & _ & O3 & _) & _) & _).
  - apply wp_ret. split; [reflexivity|]. rewrite take_ge, drop_ge by lia. cbn [map]. rewrite app_nil_r. destruct h; exact N.
  - apply wp_bind. eapply wp_mono; [eapply wp_put_off; [exact N|lia]|]. cbv beta. intros r T1 [-> N1].
    eapply wp_mono; [eapply IH; [exact N1|lia]|]. cbv beta. intros r T2 [-> N2]. split; [reflexivity|]. cbn [h_buf h_a h_m] in N2.
    replace (take (S i) (<[i:=offsetUnset]> (h_a h)) ++ map (fun _ => offsetUnset) (drop (S i) (<[i:=offsetUnset]> (h_a h)))) with (take i (h_a h) ++ map (fun _ => offsetUnset) (drop i (h_a h))) in N2; [exact N2|].
    assert (is_Some (h_a h !! i)) as [y Hy] by (apply lookup_lt_is_Some; lia).
    rewrite (drop_S _ _ _ Hy). rewrite drop_insert_gt by lia. rewrite (take_S_r _ i offsetUnset) by (apply list_lookup_insert; lia). rewrite take_insert by lia. rewrite <- app_assoc. reflexivity.
Qed.
Lemma wp_clear b n o T σ h : now b n o T σ h ->
  wp T (c_clear n o) (fun r T' => r = Ok tt /\ now b n o T' (put_offs σ h (offsets_clear (hoffs σ h))).1 (put_offs σ h (offsets_clear (hoffs σ h))).2).
Proof.
  intros N. unfold c_clear. apply wp_bind. eapply wp_mono; [eapply wp_zero; [exact N|reflexivity]|]. cbv beta. intros r T1 [-> N1]. rewrite take_0, drop_0 in N1. cbn [app] in N1.
  pose proof N1 as (R & ((_ & O2 & _) & _ & HM) & _). cbn [h_m] in *. unfold has_map in HM. cbn [h_m] in HM.
  eapply wp_seq; [apply wp_load_ref, O2|]. cbv beta iota. unfold put_offs, offsets_clear, hoffs. cbn [om oa]. destruct (h_m h) as [l|] eqn:El.
  - destruct HM as (m & Hm & Hd). rewrite Hm. pose proof (rep_table _ _ _ _ _ _ R Hm Hd) as Ht. eapply wp_seq; [apply wp_load_map, Ht|]. cbv beta iota.
    eapply wp_mono; [eapply wp_put_table; [exact N1|reflexivity]|]. cbv beta. intros r T2 [-> N2]. split; [reflexivity|]. exact N2.
  - apply wp_ret. split; [reflexivity|]. exact N1.
Qed.

(** *** Buffers *)
Lemma wp_push grow n o T σ h v : now true n o T σ h -> src_known T σ v ->
  wp T (c_push grow o v) (fun r T' =>
    r = Ok tt /\ now true n o T' (h_append (lift_grow grow) σ (h_buf h) (src_bytes σ v)).1 (put_buf h (h_append (lift_grow grow) σ (h_buf h) (src_bytes σ v)).2)).
Proof.
  intros N V. pose proof N as (R & ((O1 & O2 & O3 & O4) & K & HM) & M & W & F). unfold c_push.
  eapply wp_seq; [apply wp_load_slice, O1|]. cbv beta iota. apply wp_bind. eapply wp_mono; [apply (wp_append _ _ T σ grow (h_buf h) v); [exact R|exact K|auto|exact V]|]. cbv beta. intros r T1.
  destruct (h_append (lift_grow grow) σ (h_buf h) (src_bytes σ v)) as [σ1 s1]. intros (-> & R1 & F1 & K1 & W1). cbn [fst snd].
  eapply wp_mono; [apply (wp_put_buf true true n o T1 σ1 h s1); [eapply now_mem; [exact N|exact R1|exact F1]|exact K1|intros _; exact W1]|]. cbv beta. auto.
Qed.

Lemma put_src σ h o v : src_bytes (put_offs σ h o).1 v = src_bytes σ v.
Proof. destruct v as [bs|s]; [reflexivity|]. apply sbytes_arrs, put_arrs. Qed.

(** What a call leaves behind, as Recover.v has it. *)
Definition post (b : bool) (n o : nat) (x : res unit * (mem * hmsg)) : res unit -> heap -> Prop :=
  fun r T' => r = x.1 /\ now b n o T' x.2.1 x.2.2.
Lemma wp_attempt {A} b n o T σ h (p : prog A) r k kk : now b n o T σ h -> wp T p (fun r' T' => r' = r /\ T' = T) ->
  (forall a, r = Ok a -> wp T (k a) (post b n o (kk a))) -> wp T (bind p k) (post b n o (attempt (σ, h) r kk)).
Proof. intros N Hp Hk. eapply wp_seq; [exact Hp|]. destruct r; cbn [attempt]; [apply Hk; reflexivity|split; [reflexivity|exact N]..]. Qed.
Lemma wp_stop_eq {A} T (r : res A) : wp T (Stop r) (fun r' T' => r' = r /\ T' = T).
Proof. apply wp_stop. auto. Qed.
Lemma wp_attempt_copy n o T σ h s i v k kk : now true n o T σ h -> knows T σ s -> writable s -> src_known T σ v ->
  (forall σ' m T', h_copy σ s i (src_bytes σ v) = Ok (σ', m) -> now true n o T' σ' h -> wp T' (k m) (post true n o (kk (σ', m)))) ->
  wp T (bind (c_copy s i v) k) (post true n o (attempt (σ, h) (h_copy σ s i (src_bytes σ v)) kk)).
Proof.
  intros N K W V Hk. apply wp_bind. eapply wp_mono; [apply (wp_copy _ _ T σ); [apply N|exact K|exact W|exact V]|]. cbv beta. intros r T'.
  destruct (h_copy σ s i (src_bytes σ v)) as [[σ' m]| | |]; cbn [attempt].
  - intros (-> & R' & F'). apply Hk; [reflexivity|]. eapply now_mem; eassumption.
  - intros [-> ->]. split; [reflexivity|exact N].
  - intros [].
  - intros [].
Qed.
Lemma wp_attempt_set b n o T σ h f x k kk : now b n o T σ h ->
  (forall o' T', offsets_set (hoffs σ h) f x = Ok o' -> now b n o T' (put_offs σ h o').1 (put_offs σ h o').2 -> wp T' (k tt) (post b n o (kk o'))) ->
  wp T (bind (c_offsets_set n o f x) k) (post b n o (attempt (σ, h) (offsets_set (hoffs σ h) f x) kk)).
Proof.
  intros N Hk. apply wp_bind. eapply wp_mono; [apply (wp_offsets_set b n o T σ h); exact N|]. cbv beta. intros r T'.
  destruct (offsets_set_res (hoffs σ h) f x) as [E|(o' & E & _)]; rewrite E; cbn [attempt].
  - intros [-> ->]. split; [reflexivity|exact N].
  - intros [-> N']. apply Hk; [exact E|exact N'].
Qed.

(** The last two appends. *)
Lemma wp_pushes grow n o T σ h vl v : now true n o T σ h -> src_known T0 σ0 v ->
  wp T (bind (c_push grow o (Scratch vl)) (fun _ => c_push grow o v)) (post true n o
    (let '(σ, b) := h_append (lift_grow grow) σ (h_buf h) vl in
     let '(σ, b) := h_append (lift_grow grow) σ b (src_bytes σ v) in (Ok tt, (σ, put_buf h b)))).
Proof.
  intros N V. apply wp_bind. eapply wp_mono; [apply (wp_push grow n o T σ h (Scratch vl)); [exact N|exact I]|]. cbv beta. cbn [src_bytes]. intros r T1.
  destruct (h_append _ σ (h_buf h) vl) as [σ1 b1]. cbn [fst snd]. intros [-> N1].
  eapply wp_mono; [apply (wp_push grow n o T1 σ1 (put_buf h b1) v); [exact N1|eapply now_known; eassumption]|]. cbv beta. cbn [put_buf h_buf]. intros r T2.
  destruct (h_append _ σ1 b1 (src_bytes σ1 v)) as [σ2 b2]. cbn [fst snd]. intros [-> N2]. split; [reflexivity|exact N2].
Qed.

Lemma wp_set_new grow n o T σ h f tb vl v : now true n o T σ h -> src_known T0 σ0 v ->
  wp T (c_set_new grow n o f tb vl v) (post true n o (r_set_new (lift_grow grow) σ h f tb vl v)).
Proof.
  intros N V. unfold c_set_new, r_set_new. apply wp_bind. eapply wp_mono; [apply (wp_push grow n o T σ h (Scratch tb)); [exact N|exact I]|]. cbv beta. cbn [src_bytes]. intros r T1.
  destruct (h_append _ σ (h_buf h) tb) as [σ1 b1] eqn:E1. cbn [fst snd]. intros [-> N1].
  pose proof N1 as (R1 & ((O1 & _) & _) & _). cbn [h_buf put_buf] in O1. eapply wp_seq; [apply wp_load_slice, O1|]. cbv beta iota.
  apply wp_attempt_set; [exact N1|]. intros o' T2 E N2. pose proof (put_buf_put σ1 (put_buf h b1) o') as Hb. destruct (put_offs σ1 (put_buf h b1) o') as [σ2 h2]. cbn [fst snd] in *.
  cbn [put_buf h_buf] in Hb. rewrite <- Hb. apply wp_pushes; assumption.
Qed.

(** *** The offsets behind a removed field *)
Definition adjust_cell (fieldEnd removed x : Z) : Z := if negb (x =? 65535) && (fieldEnd <? x) then u16 (x - u16 removed) else x.
Lemma wp_adjust_array b n o fe rb k : forall i T σ h, now b n o T σ h -> (i + k = n)%nat ->
  wp T (c_adjust_array k i o fe rb) (fun r T' => r = Ok tt /\ now b n o T' σ (mkH (h_buf h) (take i (h_a h) ++ map (adjust_cell fe rb) (drop i (h_a h))) (h_m h))).
Proof.
  induction k as [|k IH]; intros i T σ h N Hi; cbn [c_adjust_array]; pose proof N as (_ & ((_ & _ & O3 & O4) & _) & _).
  - apply wp_ret. split; [reflexivity|]. rewrite take_ge, drop_ge by lia. cbn [map]. rewrite app_nil_r. destruct h; exact N.
  - assert (is_Some (h_a h !! i)) as [y Hy] by (apply lookup_lt_is_Some; lia).
    eapply wp_seq; [apply wp_load_num, (O4 _ _ Hy)|]. cbv beta iota.
    assert (H1 : wp T (if negb (y =? 65535) && (fe <? y) then store (Off o i) (Num (u16 (y - u16 rb))) else ret tt)
      (fun r T' => r = Ok tt /\ now b n o T' σ (mkH (h_buf h) (<[i := adjust_cell fe rb y]> (h_a h)) (h_m h)))).
    { unfold adjust_cell. destruct (_ && _); [eapply wp_put_off; [exact N|lia]|]. apply wp_ret. split; [reflexivity|]. rewrite list_insert_id by exact Hy. destruct h; exact N. }
    apply wp_bind. eapply wp_mono; [exact H1|]. cbv beta. intros r T1 [-> N1].
    eapply wp_mono; [eapply IH; [exact N1|lia]|]. cbv beta. intros r T2 [-> N2]. split; [reflexivity|]. cbn [h_buf h_a h_m] in N2.
    replace (take (S i) (<[i:=adjust_cell fe rb y]> (h_a h)) ++ map (adjust_cell fe rb) (drop (S i) (<[i:=adjust_cell fe rb y]> (h_a h)))) with (take i (h_a h) ++ map (adjust_cell fe rb) (drop i (h_a h))) in N2; [exact N2|].
    rewrite (drop_S _ _ _ Hy). rewrite drop_insert_gt by lia. rewrite (take_S_r _ i (adjust_cell fe rb y)) by (apply list_lookup_insert; lia). rewrite take_insert by lia. rewrite <- app_assoc. reflexivity.
Qed.

Lemma put_m σ h o l : h_m h = Some l -> h_m (put_offs σ h o).2 = Some l.
Proof. unfold put_offs. intros ->. destruct (om o); reflexivity. Qed.
Lemma put_map σ h o l : h_m h = Some l -> fits h o -> maps (put_offs σ h o).1 !! l = om o.
Proof. unfold fits, put_offs. intros ->. intros H. destruct (om o) as [m|]; [cbn; apply lookup_insert|]. destruct H as [? [=]]. eauto. Qed.
Lemma fits_mono h o1 o2 : fits h o1 -> (is_Some (om o1) -> is_Some (om o2)) -> fits h o2.
Proof. unfold fits. auto. Qed.

Lemma wp_adjust_keys b n o l fe rb σ h ks : h_m h = Some l -> forall T os, now b n o T (put_offs σ h os).1 (put_offs σ h os).2 -> fits h os ->
  wp T (c_adjust_keys n o l ks fe rb) (fun r T' =>
    let x := PanicState.p_adjust_map_keys ks fe rb ([], os) in r = x.1 /\ now b n o T' (put_offs σ h x.2.2).1 (put_offs σ h x.2.2).2 /\ fits h x.2.2).
Proof.
  intros Hl. induction ks as [|k ks IH]; intros T os N Hf; cbn [c_adjust_keys PanicState.p_adjust_map_keys].
  - apply wp_ret. auto.
  - pose proof N as (R & (_ & _ & HM) & _). destruct (Hf ltac:(rewrite Hl; eauto)) as [m Hm].
    unfold has_map in HM. rewrite (put_m _ _ _ _ Hl) in HM. destruct HM as (m' & Hm' & Hd). rewrite (put_map _ _ _ _ Hl Hf), Hm in Hm'. injection Hm' as <-.
    pose proof (rep_table _ _ _ _ l m R ltac:(rewrite (put_map _ _ _ _ Hl Hf); exact Hm) Hd) as Ht. eapply wp_seq; [apply wp_load_map, Ht|]. cbv beta iota.
    unfold PanicState.pbind, PanicState.pread, PanicState.woff, adjust_map_key. cbn [fst snd]. rewrite Hm.
    destruct (m !! k) as [x|]; [|apply wp_bind, wp_ret; apply IH; assumption]. destruct (fe <? x); [|apply wp_bind, wp_ret; apply IH; assumption].
    apply wp_bind. eapply wp_mono; [apply wp_offsets_set; exact N|]. cbv beta. intros r T1. rewrite put_hoffs by exact Hf.
    destruct (offsets_set_res os k (u64 (x - rb))) as [E|(o' & E & Ho & _)]; rewrite E; cbn [fst snd].
    + intros [-> ->]. auto.
    + rewrite put_put by assumption. intros [-> N1]. apply IH; [exact N1|]. eapply fits_mono; eassumption.
Qed.

Lemma fits_hoffs T σ h : has_map T σ h -> fits h (hoffs σ h).
Proof. unfold has_map, fits, hoffs. cbn [om]. destruct (h_m h); intros H1 H2; [destruct H1 as (m & -> & _); eauto|]. destruct H2; discriminate. Qed.
Lemma adjust_map_eq a fe rb : adjust_array a fe rb = map (adjust_cell fe rb) a.
Proof. reflexivity. Qed.

(** *** setSingle *)
Lemma wp_setSingle grow n o T σ h f typ vl v : now true n o T σ h -> src_known T0 σ0 v ->
  wp T (c_setSingle grow n o f typ vl v) (post true n o (r_setSingle (lift_grow grow) σ h f typ vl v)).
Proof.
  intros N V. unfold c_setSingle, r_setSingle. cbv zeta.
  eapply wp_attempt; [exact N|apply wp_stop_eq|]. intros tb _.
  eapply wp_attempt; [exact N|eapply wp_offsets_get; apply N|]. intros [x ok] _. cbn [fst snd].
  destruct ok; [|apply wp_set_new; assumption].
  eapply wp_attempt; [exact N|eapply wp_old_len; apply N|]. intros old _.
  pose proof N as (R & ((O1 & O2 & O3 & O4) & K & HM) & M & W & F).
  destruct (old =? zlen vl + src_len v).
  - eapply wp_seq; [apply wp_load_slice, O1|]. cbv beta iota.
    apply (wp_attempt_copy n o T σ h (h_buf h) x (Scratch vl)); [exact N|exact K|auto|exact I|]. intros σ1 m T1 _ N1. cbn [fst snd].
    pose proof N1 as (R1 & ((P1 & _) & K1 & _) & _). eapply wp_seq; [apply wp_load_slice, P1|]. cbv beta iota.
    apply wp_attempt_copy; [exact N1|exact K1|auto|eapply now_known; eassumption|]. intros σ2 m2 T2 _ N2. apply wp_ret. split; [reflexivity|exact N2].
  - eapply wp_seq; [apply wp_load_slice, O1|]. cbv beta iota.
    set (fe := u64 (x + u64 old)). set (fb := u64 (x - u64 (zlen tb))). set (rb := u64 (fe - fb)).
    eapply wp_attempt; [exact N|apply wp_stop_eq|]. intros s Es. destruct (knows_from _ _ _ _ _ K Es) as [Ks _].
    apply (wp_attempt_copy n o T σ h (h_buf h) fb (View s)); [exact N|exact K|auto|exact Ks|]. intros σ1 m T1 _ N1. cbn [fst snd].
    pose proof N1 as (R1 & ((P1 & _) & K1 & _) & _). eapply wp_seq; [apply wp_load_slice, P1|]. cbv beta iota.
    eapply wp_attempt; [exact N1|apply wp_stop_eq|]. intros s2 Es2. destruct (knows_range _ _ _ _ _ _ K1 Es2) as [Ks2 Hsub].
    apply wp_bind. eapply wp_mono; [apply (wp_put_buf true true n o T1 σ1 h s2); [exact N1|exact Ks2|intros _; eapply writable_sub; [auto|exact Hsub]]|]. cbv beta. intros r T2 [-> N2].
    apply wp_bind. eapply wp_mono; [apply (wp_adjust_array true n o fe rb n 0 T2 σ1 (put_buf h s2)); [exact N2|reflexivity]|]. cbv beta. intros r T3 [-> N3].
    rewrite take_0, drop_0 in N3. cbn [app put_buf h_a h_buf h_m] in N3.
    set (h2 := put_buf h s2) in *. set (os := mkOffsets (adjust_array (oa (hoffs σ1 h2)) fe rb) (om (hoffs σ1 h2))).
    pose proof N1 as (_ & (_ & _ & HM1) & _).
    assert (Hf : fits h2 os) by (apply (fits_hoffs T1 σ1 h2), HM1).
    assert (N3' : now true n o T3 (put_offs σ1 h2 os).1 (put_offs σ1 h2 os).2).
    { unfold has_map in HM1. unfold put_offs, os, h2. cbn [om oa hoffs put_buf h_m h_a h_buf]. destruct (h_m h) as [l|]; [|exact N3]. destruct HM1 as (m1 & Hm1 & _). rewrite Hm1. cbn [fst snd]. rewrite insert_id by exact Hm1. destruct σ1; exact N3. }
    assert (H4 : wp T3 (c_adjust_map n o fe rb) (fun r T' => let x := PanicState.p_adjust_map_keys (map_keys os) fe rb ([], os) in r = x.1 /\ now true n o T' (put_offs σ1 h2 x.2.2).1 (put_offs σ1 h2 x.2.2).2 /\ fits h2 x.2.2)).
    { unfold c_adjust_map. pose proof N3 as (R3 & ((_ & Q2 & _) & _ & HM3) & _). cbn [h_m] in Q2. unfold has_map in HM3. cbn [h_m] in HM3. eapply wp_seq; [apply wp_load_ref, Q2|]. cbv beta iota.
      unfold has_map in HM1. destruct (h_m h) as [l|] eqn:El.
      - destruct HM1 as (m1 & Hm1 & _). destruct HM3 as (m3 & _ & Hd3). pose proof (rep_table _ _ _ _ _ _ R3 Hm1 Hd3) as Ht. eapply wp_seq; [apply wp_load_map, Ht|]. cbv beta iota.
        assert (Hk : map_keys os = (map_to_list m1).*1). { unfold map_keys, os, hoffs, h2. cbn [om put_buf h_m]. rewrite El, Hm1. reflexivity. }
        rewrite Hk. apply wp_adjust_keys; [exact El|exact N3'|exact Hf].
      - apply wp_ret. assert (Hk : map_keys os = []). { unfold map_keys, os, hoffs, h2. cbn [om put_buf h_m]. rewrite El. reflexivity. }
        rewrite Hk. cbn. auto. }
    apply wp_bind. eapply wp_mono; [exact H4|]. cbv beta zeta. intros r T4.
    destruct (PanicState.p_adjust_map_keys (map_keys os) fe rb ([], os)) as [r4 [b4 o4]]. cbn [fst snd]. intros (-> & N4 & _).
    destruct (put_offs σ1 h2 o4) as [σ4 h4]. cbn [fst snd] in *. destruct r4 as [[]| | |]; cbn [attempt]; [|split; [reflexivity|exact N4]..]. apply wp_set_new; assumption.
Qed.

(** *** appendSingle *)
Lemma wp_appendSingle grow n o T σ h f typ vl v : now true n o T σ h -> src_known T0 σ0 v ->
  wp T (c_appendSingle grow n o f typ vl v) (post true n o (r_appendSingle (lift_grow grow) σ h f typ vl v)).
Proof.
  intros N V. unfold c_appendSingle, r_appendSingle. cbv zeta.
  eapply wp_attempt; [exact N|apply wp_stop_eq|]. intros tb _.
  apply wp_bind. eapply wp_mono; [apply (wp_push grow n o T σ h (Scratch tb)); [exact N|exact I]|]. cbv beta. cbn [src_bytes]. intros r T1.
  destruct (h_append _ σ (h_buf h) tb) as [σ1 b1] eqn:E1. cbn [fst snd]. intros [-> N1].
  pose proof N1 as (R1 & ((O1 & _) & _ & HM) & _). cbn [h_buf put_buf] in O1. eapply wp_seq; [apply wp_load_slice, O1|]. cbv beta iota.
  eapply wp_attempt; [exact N1|eapply wp_offsets_get; apply N1|]. intros [x ok] _. cbn [fst snd]. destruct ok.
  - cbn [attempt]. apply wp_bind, wp_ret. rewrite (put_self _ _ _ HM). apply (wp_pushes grow n o T1 σ1 (put_buf h b1)); assumption.
  - apply wp_attempt_set; [exact N1|]. intros o' T2 E N2. pose proof (put_buf_put σ1 (put_buf h b1) o') as Hb. destruct (put_offs σ1 (put_buf h b1) o') as [σ2 h2]. cbn [fst snd] in *.
    cbn [put_buf h_buf] in Hb. rewrite <- Hb. apply wp_pushes; assumption.
Qed.

(** *** The methods *)
Lemma wp_set grow ty n o T σ h f v : now true n o T σ h -> wp T (c_set grow ty n o f v) (post true n o (r_set (lift_grow grow) ty σ h f v)).
Proof. intros N. eapply wp_attempt; [exact N|apply wp_stop_eq|]. intros [[typ vl] val] _. apply wp_setSingle; [exact N|exact I]. Qed.
Lemma wp_set_view grow n o T σ h f s : now true n o T σ h -> knows T0 σ0 s ->
  wp T (c_set_view grow n o f s) (post true n o (r_set_view (lift_grow grow) σ h f s)).
Proof. intros N K. eapply wp_attempt; [exact N|apply wp_stop_eq|]. intros vl _. apply wp_setSingle; [exact N|exact K]. Qed.
Lemma wp_append_bytes grow n o T σ h f v : now true n o T σ h -> src_known T0 σ0 v ->
  wp T (c_append_bytes grow n o f v) (post true n o (r_append_bytes (lift_grow grow) σ h f v)).
Proof. intros N K. eapply wp_attempt; [exact N|apply wp_stop_eq|]. intros vl _. apply wp_appendSingle; [exact N|exact K]. Qed.

(** *** Decode and Reset *)
Lemma wp_decode_store n o σ h T bb os f x reps : now false n o T (put_offs σ h os).1 (put_offs σ h os).2 -> fits h os ->
  wp T (if is_repeated reps f then
          bind (c_offsets_get n o f) (fun g => let '(_, ok) := g in if (ok : bool) then ret tt else c_offsets_set n o f x)
        else c_offsets_set n o f x)
    (fun r T' =>
       let y := (if is_repeated reps f then
                   PanicState.pbind (PanicState.pread (fun s => offsets_get s.2 f)) (fun g => if g.2 then PanicState.pret tt else PanicState.p_offsets_set f x)
                 else PanicState.p_offsets_set f x) (bb, os) in
       r = y.1 /\ now false n o T' (put_offs σ h y.2.2).1 (put_offs σ h y.2.2).2 /\ fits h y.2.2 /\ y.2.1 = bb).
Proof.
  intros N Hf. assert (H1 : wp T (c_offsets_set n o f x) (fun r T' =>
       let y := PanicState.p_offsets_set f x (bb, os) in
       r = y.1 /\ now false n o T' (put_offs σ h y.2.2).1 (put_offs σ h y.2.2).2 /\ fits h y.2.2 /\ y.2.1 = bb)).
  { eapply wp_mono; [apply wp_offsets_set; exact N|]. cbv beta. intros r T1. rewrite put_hoffs by exact Hf.
    unfold PanicState.p_offsets_set, PanicState.pbind, PanicState.pread, PanicState.woff. cbn [fst snd].
    destruct (offsets_set_res os f x) as [E|(o' & E & Ho & _)]; rewrite E; cbn [fst snd].
    - intros [-> ->]. auto.
    - rewrite put_put by assumption. intros [-> N1]. split; [reflexivity|]. split; [exact N1|]. split; [|reflexivity]. eapply fits_mono; eassumption. }
  destruct (is_repeated reps f); [|exact H1].
  eapply wp_seq; [eapply wp_offsets_get; apply N|]. rewrite put_hoffs by exact Hf. unfold PanicState.pbind, PanicState.pread. cbn [fst snd].
  destruct (offsets_get_res os f) as [E|([z ok] & E)]; rewrite E; cbn [fst snd]; [auto|]. destruct ok; [apply wp_ret; cbn; auto|exact H1].
Qed.

Lemma wp_decode_loop n o σ h buf reps fuel : knows T0 σ0 buf -> forall T bb os idx x, now false n o T (put_offs σ h os).1 (put_offs σ h os).2 -> fits h os ->
  PanicState.p_decode_loop fuel (sbytes σ buf) reps idx (bb, os) = x ->
  wp T (c_decode_loop fuel n o buf reps idx) (fun r T' => r = x.1 /\ now false n o T' (put_offs σ h x.2.2).1 (put_offs σ h x.2.2).2).
Proof.
  intros K0. assert (HB : forall os, sbytes (put_offs σ h os).1 buf = sbytes σ buf) by (intros os; apply sbytes_arrs, put_arrs).
  induction fuel as [|fuel IH]; intros T bb os idx x N Hf Hx; cbn [c_decode_loop]; cbn [PanicState.p_decode_loop] in Hx; [apply wp_stop; subst x; auto|].
  pose proof (now_knows _ _ _ _ _ _ _ N K0) as K. pose proof (sbytes_length _ _ (proj1 K)) as El. rewrite HB in El. rewrite El in Hx.
  destruct (idx =? hlen buf); [apply wp_ret; subst x; auto|]. destruct (hlen buf <? idx); [apply wp_ret; subst x; auto|].
  apply (wp_from_uvarint _ _ T (put_offs σ h os).1); [apply N|exact K|]. rewrite HB. unfold PanicState.pbind at 1, PanicState.pread at 1 in Hx.
  destruct (slice_from (sbytes σ buf) idx) as [b| | |]; [|subst x; auto..]. destruct (uvarint b) as [tag size]. cbv beta iota zeta. cbv beta iota zeta in Hx.
  destruct (size =? 0); [apply wp_ret; subst x; auto|]. destruct (hlen buf <=? i64 (idx + size)); [apply wp_ret; subst x; auto|].
  set (fid := i64 (Z.shiftr tag 3)) in *. set (idx2 := i64 (idx + size)) in *.
  unfold PanicState.pbind at 1 in Hx. apply wp_bind. eapply wp_mono; [apply (wp_decode_store n o σ h T bb os fid (u64 idx2) reps); assumption|]. cbv beta zeta. intros r T1.
  match type of Hx with context [(if is_repeated reps fid then ?a else ?b) (bb, os)] => destruct ((if is_repeated reps fid then a else b) (bb, os)) as [r1 [bb1 os1]] end. cbn [fst snd].
  intros (-> & N1 & Hf1 & ->). destruct r1 as [[]| | |]; [|subst x; auto..].
  pose proof (now_knows _ _ _ _ _ _ _ N1 K0) as K1.
  unfold PanicState.pbind at 1, PanicState.pread at 1 in Hx. apply wp_lift. pose proof (h_from_ok _ buf idx2 (proj1 K1)) as E. rewrite HB in E.
  destruct (slice_from (sbytes σ buf) idx2) as [b2| | |]; try contradiction; [|rewrite E; subst x; auto].
  destruct E as (d & E & Eb & _). rewrite E. destruct (knows_from _ _ _ _ _ K1 E) as [Kd _].
  unfold PanicState.pbind, PanicState.pread in Hx. eapply wp_seq; [apply (wp_fieldDataSize _ _ T1 (put_offs σ h os1).1); [apply N1|exact Kd]|]. rewrite Eb.
  destruct (fieldDataSize _ b2) as [k| | |]; [|subst x; auto..]. destruct (k =? 0); [apply wp_ret; subst x; auto|]. eapply IH; eassumption.
Qed.

Lemma decode_loop_enough buf reps b os more : (PanicState.p_decode_loop (more + fuel_of buf) buf reps 0 (b, os)).1 = (PanicState.p_decode_loop (fuel_of buf) buf reps 0 (b, os)).1 /\
  ((PanicState.p_decode_loop (more + fuel_of buf) buf reps 0 (b, os)).1 <> OutOfFuel ->
   PanicState.p_decode_loop (more + fuel_of buf) buf reps 0 (b, os) = PanicState.p_decode_loop (fuel_of buf) buf reps 0 (b, os)).
Proof.
  destruct (PanicFacts.p_decode_loop_agrees (fuel_of buf) buf reps 0 b os) as (H1 & _ & _).
  destruct (PanicFacts.p_decode_loop_agrees (more + fuel_of buf) buf reps 0 b os) as (H2 & _ & _).
  assert (E : decode_loop (more + fuel_of buf) buf reps 0 os = decode_loop (fuel_of buf) buf reps 0 os).
  { destruct (decode_loop (fuel_of buf) buf reps 0 os) as [a| | |] eqn:E.
    1-3: rewrite <- E; apply decode_mono; [lia|rewrite E; discriminate].
    apply decode_fuel_iff. intros Hn. apply decode_fuel_iff in E. apply E.
    pose proof (Fuel.iter_bound _ _ (decode_next_range buf _) _ _ Hn) as Hb. eapply Fuel.iter_mono; [|exact Hb]. unfold fuel_of. lia. }
  rewrite E in H2. split; [congruence|]. intros Hne. apply p_loop_le. congruence.
Qed.

(** What Decode leaves behind does not matter if it never ends. *)
Lemma wp_decode more b n o T σ h mt s : now b n o T σ h -> knows T0 σ0 s ->
  wp T (c_decode more n o (GenApi.reps mt) s) (fun r T' =>
    let x := r_decode mt σ h s in r = x.1 /\ (r <> OutOfFuel -> now false n o T' x.2.1 x.2.2)).
Proof.
  intros N K. pose proof (now_knows _ _ _ _ _ _ _ N K) as Ks. unfold c_decode. apply wp_bind. eapply wp_mono; [apply (wp_put_buf b false n o T σ h s); [exact N|exact Ks|discriminate]|]. cbv beta. intros r T1 [-> N1].
  apply wp_bind. eapply wp_mono; [apply wp_clear; exact N1|]. cbv beta. intros r T2 [-> N2]. set (h1 := put_buf h s) in *.
  assert (Hf : fits h1 (offsets_clear (hoffs σ h1))).
  { pose proof N1 as (_ & (_ & _ & HM) & _). apply fits_hoffs in HM. eapply fits_mono; [exact HM|]. unfold offsets_clear. cbn [om]. destruct (om (hoffs σ h1)); [eauto|]. intros [? [=]]. }
  eapply wp_mono; [apply (wp_decode_loop n o σ h1 s (GenApi.reps mt) (loops more s) K T2 (sbytes σ s) (offsets_clear (hoffs σ h1)) 0 _ N2 Hf eq_refl)|]. cbv beta. intros r T3 [Hr N3].
  unfold loops in *. pose proof (sbytes_length _ _ (proj1 Ks)) as El.
  replace (S (S (Z.to_nat (hlen s)))) with (fuel_of (sbytes σ s)) in * by (unfold fuel_of, zlen in *; lia).
  unfold r_decode, PanicState.p_Decode. unfold PanicState.pbind, PanicState.wbuf. cbn [fst snd]. change (hoffs σ h1) with (hoffs σ h) in *.
  destruct (decode_loop_enough (sbytes σ s) (GenApi.reps mt) (sbytes σ s) (offsets_clear (hoffs σ h)) more) as [E1 E2]. rewrite <- Hr in E1, E2.
  destruct (PanicState.p_decode_loop (fuel_of (sbytes σ s)) (sbytes σ s) (GenApi.reps mt) 0 (sbytes σ s, offsets_clear (hoffs σ h))) as [r3 [b3 o3]] eqn:E3. cbn [fst snd] in *.
  split; [exact E1|]. intros Hne. rewrite (E2 Hne) in N3. exact N3.
Qed.

Lemma wp_reset b n o T σ h s : now b n o T σ h -> knows T0 σ0 s ->
  wp T (c_reset n o s) (fun r T' =>
    match h_reset σ h s with
    | Ok (σ', h') => r = Ok tt /\ now false n o T' σ' h'
    | _ => r = Panic /\ T' = T
    end).
Proof.
  intros N K. pose proof (now_knows _ _ _ _ _ _ _ N K) as Ks. unfold c_reset, h_reset. destruct (0 <? hlen s); [apply wp_stop; auto|].
  apply wp_bind. eapply wp_mono; [apply (wp_put_buf b false n o T σ h s); [exact N|exact Ks|discriminate]|]. cbv beta. intros r T1 [-> N1].
  eapply wp_mono; [apply wp_clear; exact N1|]. cbv beta. intros r T2 [-> N2]. change (hoffs σ (put_buf h s)) with (hoffs σ h) in N2.
  destruct (put_offs σ (put_buf h s) (offsets_clear (hoffs σ h))) as [σ2 h2]. auto.
Qed.
End set.

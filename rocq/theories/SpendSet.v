(** * The cost of setters and AppendBytes *)
From Verif Require Import GoBase Spec VarintFacts OffsetsFacts RecFacts DecodeFacts Heap HeapFacts Api GetFacts ApiInv ApiFacts.
From Verif Require Import Access AccessFacts AccessApi SpecGo SpecSpend SpendFacts SpendGet.
From Coq Require Import ZifyBool.

Lemma put_uvarint_len cap : forall x bs, put_uvarint cap x = Ok bs -> (length bs <= cap)%nat.
Proof.
  induction cap as [|cap IH]; intros x bs; cbn [put_uvarint]; [discriminate|]. destruct (128 <=? x).
  - destruct (put_uvarint cap _) as [bs'| | |] eqn:E; cbn [rbind]; try discriminate. intros H. injection H as <-. apply IH in E. cbn [length]. lia.
  - intros H. injection H as <-. cbn [length]. lia.
Qed.
Lemma set_args_len T v typ vl val : set_args T v = Ok (typ, vl, val) -> zlen vl <= 10 /\ zlen vl + zlen val <= 10 + pval_size v.
Proof.
  assert (HU : forall cap x bs, (cap <= 10)%nat -> put_uvarint cap x = Ok bs -> zlen bs <= 10).
  { intros cap x bs Hc H. apply put_uvarint_len in H. unfold zlen. lia. }
  unfold set_args, put_varint. destruct T, v as [b|x|x|x]; try discriminate; cbn [pval_size];
    try (intros H; injection H as <- <- <-; unfold zlen, put_le32, put_le64; cbn [length]; lia);
    match goal with |- context [put_uvarint ?c ?x] => destruct (put_uvarint c x) as [bs| | |] eqn:E end; cbn [rbind]; try discriminate;
    intros H; injection H as <- <- <-; (apply HU in E; [|unfold MaxVarintLen64, MaxVarintLen32; lia]);
    try (unfold zlen in *; cbn [length]; lia).
  destruct x as [x|]; cbn [default]; unfold zlen in *; cbn [length]; unfold id; lia.
Qed.

Definition cap_of (s : option slice) : Z := match s with None => 0 | Some s => scap s end.
(** What it costs to bring a value to the buffer: its bytes are written, and read if they
    are in memory. *)
Definition src_cost (v : src) : Z := match v with Scratch bs => zlen bs | View s => 2 * hlen s end.

(** Bytes, or the slice header of [o]. *)
Definition data_of (o : nat) : loc -> Prop := fun l => (exists a j, l = Byte a j) \/ l = Buf o.
Definition bytes_only : loc -> Prop := fun l => exists a j, l = Byte a j.

Lemma tame_src_push {A} (a : nat) (pos : Z) (v : src) (k : prog A) Q b : 0 <= src_len v -> tame bytes_only b k Q ->
  tame bytes_only (Z.to_nat (src_cost v) + b) (let! bs := c_src v (src_len v) in let! _ := c_write a pos bs in k) Q.
Proof.
  intros Hv Hk. assert (HW : forall bs, tame bytes_only (length bs) (c_write a pos bs) (fun _ => True)).
  { intros bs. eapply tame_mono; [apply tame_write|lia| |auto]. intros l [j ->]. eexists _, _. reflexivity. }
  destruct v as [bs|s]; cbn [src_len src_cost c_src] in *.
  - cbn. rewrite take_ge by (unfold zlen; lia). replace (Z.to_nat (zlen bs)) with (length bs) by (unfold zlen; lia). eapply tame_bind; [apply HW|]. intros ? _. exact Hk.
  - replace (Z.to_nat (2 * hlen s) + b)%nat with (Z.to_nat (hlen s) + (Z.to_nat (hlen s) + b))%nat by lia.
    eapply tame_bind; [eapply tame_mono; [apply tame_bytes|reflexivity|intros l []|intros l Hl; exact Hl]|]. cbv beta. intros l Hl.
    eapply tame_bind; [eapply tame_mono; [apply HW|exact Hl|auto|intros ? H; exact H]|]. intros ? _. exact Hk.
Qed.
Lemma tame_append grow s v : 0 <= hlen s -> 0 <= src_len v ->
  tame bytes_only (Z.to_nat (src_cost v + if hlen s + src_len v <=? cap_of s then 0 else 1 + 2 * hlen s)) (c_append grow s v)
    (fun s' => hlen s' = hlen s + src_len v /\
       cap_of s' = if hlen s + src_len v <=? cap_of s then cap_of s else Z.max (hlen s + src_len v) (grow (cap_of s) (hlen s + src_len v))).
Proof.
  intros Hs Hv. assert (Hc : 0 <= src_cost v) by (destruct v; cbn in *; unfold zlen; lia). unfold c_append. fold (cap_of s).
  destruct (hlen s + src_len v <=? cap_of s) eqn:E.
  - destruct s as [s|]; [|cbn in *; lia]. rewrite Z.add_0_r.
    replace (Z.to_nat (src_cost v)) with (Z.to_nat (src_cost v) + 0)%nat by lia.
    apply tame_src_push; [exact Hv|]. cbn. auto.
  - replace (Z.to_nat (src_cost v + (1 + 2 * hlen s))) with (1 + (Z.to_nat (hlen s) + (Z.to_nat (hlen s) + (Z.to_nat (src_cost v) + 0))))%nat by lia.
    eapply (tame_bind _ _ _ (fun _ => True)); [cbn; eexists; split; [reflexivity|]; auto|]. intros a _.
    eapply tame_bind; [eapply tame_mono; [apply tame_bytes|reflexivity|intros l []|intros l Hl; exact Hl]|]. cbv beta. intros l Hl.
    eapply (tame_bind _ _ _ (fun _ => True)); [eapply tame_mono; [apply tame_write|exact Hl| |auto]; intros l0 [j ->]; eexists _, _; reflexivity|]. intros _ _.
    apply tame_src_push; [exact Hv|]. cbn. split; [reflexivity|]. lia.
Qed.

(** Appending to the buffer of [o]. *)
Lemma cwp_push grow o v G s : G !! Buf o = Some (Hdr s) -> 0 <= hlen s -> 0 <= src_len v ->
  cwp G (c_push grow o v) (fun k r G' => Z.of_nat k <= src_cost v + 2 + (if hlen s + src_len v <=? cap_of s then 0 else 1 + 2 * hlen s) /\
    kept (data_of o) G G' /\
    match r with Ok _ => exists s', G' !! Buf o = Some (Hdr s') /\ hlen s' = hlen s + src_len v /\
       cap_of s' = (if hlen s + src_len v <=? cap_of s then cap_of s else Z.max (hlen s + src_len v) (grow (cap_of s) (hlen s + src_len v)))
    | _ => True end).
Proof.
  intros Hb Hs Hv. assert (Hc : 0 <= src_cost v) by (destruct v; cbn in *; unfold zlen; lia). unfold c_push.
  assert (Hd : forall G', kept bytes_only G G' -> kept (data_of o) G G') by (intros G' HK l w Hn; apply HK; contradict Hn; left; exact Hn).
  apply cwp_bind, cwp_load. intros w Hw. rewrite Hb in Hw. injection Hw as <-. apply cwp_ret. cbn [as_slice].
  eapply cwp_tame_bind; [apply (tame_append grow s v Hs Hv)|..].
  - intros k G' Hk HK. apply Hd in HK. split_and!; auto; (destruct (_ <=? _); lia).
  - cbv beta. intros k G' s' Hk HK [H1 H2]. apply cwp_store. intros _. split; [destruct (_ <=? _); lia|]. split.
    + eapply kept_trans; [apply Hd, HK|]. apply kept_insert. right. reflexivity.
    + exists s'. rewrite lookup_insert. auto.
Qed.

(** ** Amortised *)

Definition field_of (o : nat) (f : Z) : loc -> Prop := fun l => l = Off o (Z.to_nat f) \/ l = Ref o \/ exists t, l = Table t.
Lemma tame_offsets_set_at n o f x : tame (field_of o f) 7 (c_offsets_set n o f x) (fun _ => True).
Proof.
  assert (HO : field_of o f (Off o (Z.to_nat f))) by (left; reflexivity).
  assert (HR : field_of o f (Ref o)) by (right; left; reflexivity). assert (HT : forall t, field_of o f (Table t)) by (intros t; right; right; eauto).
  unfold c_offsets_set. destruct (x <=? offsetMaxInArray); (destruct (in_array n f); [|exact I]).
  - cbn. eexists; split; [reflexivity|]. intros w. destruct (as_num w =? offsetInMap); cbn.
    + eexists; split; [reflexivity|]. intros w2. destruct (as_ref w2); cbn.
      * eexists; split; [reflexivity|]. intros w3. eexists; split; [reflexivity|]. split; [apply HT|]. eexists; split; [reflexivity|]. split; [apply HO|exact I].
      * eexists; split; [reflexivity|]. split; [apply HO|exact I].
    + eexists; split; [reflexivity|]. split; [apply HO|exact I].
  - cbn. eexists; split; [reflexivity|]. split; [apply HO|]. eexists; split; [reflexivity|]. intros w. destruct (as_ref w); cbn.
    + eexists; split; [reflexivity|]. intros w2. destruct (as_ref w2); cbn; [|exact I]. eexists; split; [reflexivity|]. intros w3. eexists; split; [reflexivity|]. split; [apply HT|exact I].
    + eexists; split; [reflexivity|]. intros id. eexists; split; [reflexivity|]. split; [apply HR|]. eexists; split; [reflexivity|]. intros w2. destruct (as_ref w2); cbn; [|exact I].
      eexists; split; [reflexivity|]. intros w3. eexists; split; [reflexivity|]. split; [apply HT|exact I].
Qed.

Section Amortised.
Context (grow : Z -> Z -> Z) (Hgrow : forall cap need, 0 <= cap < need -> 9 * cap <= 8 * grow cap need).
Context (o : nat) (cap0 len0 : Z).

(** [V] bytes were appended, copying cost [X]. *)
Definition budget (V X : Z) (s : option slice) : Prop :=
  0 <= cap0 /\ 0 <= hlen s <= cap_of s /\ hlen s <= len0 + V /\ 0 <= X /\ X <= 16 * (cap_of s - cap0) /\ X <= 18 * (len0 + V).

(** Cost so far [k0], of which [X] for copying. *)
Definition paid (G : heap) (V B : Z) (k0 : nat) : Prop := exists X s, G !! Buf o = Some (Hdr s) /\ budget V X s /\ Z.of_nat k0 <= B + X.
Definition bounded (V B : Z) (k0 : nat) : Prop := Z.of_nat k0 <= B + 18 * (len0 + V).
Lemma paid_bounded G V B k0 : paid G V B k0 -> bounded V B k0.
Proof. intros (X & s & _ & H & Hk). unfold budget, bounded in *. lia. Qed.
Lemma paid_more G V B k0 k B' : paid G V B k0 -> Z.of_nat k <= B' -> paid G V (B + B') (k0 + k).
Proof. intros (X & s & H1 & H & Hk) Hb. exists X, s. split_and!; auto. lia. Qed.
Lemma paid_kept (W : loc -> Prop) G G' V B k0 : ~ W (Buf o) -> kept W G G' -> paid G V B k0 -> paid G' V B k0.
Proof. intros HW HK (X & s & H1 & H). exists X, s. split; [apply HK; assumption|exact H]. Qed.

Lemma push_paid G V B k0 v : paid G V B k0 -> 0 <= src_len v ->
  cwp G (c_push grow o v) (fun k r G' => kept (data_of o) G G' /\ bounded (V + src_len v) (B + src_cost v + 3) (k0 + k) /\
    match r with Ok _ => paid G' (V + src_len v) (B + src_cost v + 3) (k0 + k) | _ => True end).
Proof.
  intros (X & s & Hb & Hg & Hk) Hv. unfold budget in Hg. eapply cwp_mono; [apply (cwp_push grow o v G s Hb); lia|].
  cbv beta. intros k r G' (H1 & H2 & H3). split; [exact H2|].
  set (c := if hlen s + src_len v <=? cap_of s then 0 else 2 * hlen s).
  assert (Hc : Z.of_nat k <= src_cost v + 3 + c) by (unfold c; destruct (_ <=? _); lia). clear H1.
  pose proof (Hgrow (cap_of s) (hlen s + src_len v)) as Hgr.
  assert (HX : forall s', hlen s' = hlen s + src_len v ->
    cap_of s' = (if hlen s + src_len v <=? cap_of s then cap_of s else Z.max (hlen s + src_len v) (grow (cap_of s) (hlen s + src_len v))) ->
    budget (V + src_len v) (X + c) s').
  { intros s' E1 E2. unfold budget. rewrite E1, E2. unfold c. destruct (Z.leb_spec (hlen s + src_len v) (cap_of s)); lia. }
  split.
  - unfold bounded. assert (X + c <= 18 * (len0 + (V + src_len v))); [|lia]. unfold c. destruct (Z.leb_spec (hlen s + src_len v) (cap_of s)); lia.
  - destruct r as [u| | |]; auto. destruct H3 as (s' & E & E1 & E2). exists (X + c), s'. split_and!; auto. lia.
Qed.

Definition touches (f : Z) : loc -> Prop := fun l => data_of o l \/ field_of o f l.
Lemma kept_weaken (W W' : loc -> Prop) G G' : (forall l, W l -> W' l) -> kept W G G' -> kept W' G G'.
Proof. intros HW HK l w Hn. apply HK. contradict Hn. auto. Qed.
Lemma kept_data f G G' : kept (data_of o) G G' -> kept (touches f) G G'.
Proof. apply kept_weaken. left. assumption. Qed.
Lemma kept_field f G G' : kept (field_of o f) G G' -> kept (touches f) G G'.
Proof. apply kept_weaken. right. assumption. Qed.
Lemma kept_none f G G' : kept nothing G G' -> kept (touches f) G G'.
Proof. apply kept_weaken. intros l []. Qed.
Lemma field_buf f : ~ field_of o f (Buf o).
Proof. intros [H|[H|[t H]]]; discriminate. Qed.

(** What a step leaves behind: at most [V] bytes appended in all, at most [B] spent, not
    counting copies. *)
Definition good (f : Z) (G : heap) (V B : Z) (k0 : nat) {A} (k : nat) (r : res A) (G' : heap) : Prop :=
  kept (touches f) G G' /\ bounded V B (k0 + k) /\ match r with Ok _ => paid G' V B (k0 + k) | _ => True end.
Lemma bounded_mono V B V' B' k : bounded V B k -> V <= V' -> B <= B' -> bounded V' B' k.
Proof. unfold bounded. lia. Qed.
Lemma paid_mono G V B V' B' k : paid G V B k -> V <= V' -> B <= B' -> paid G V' B' k.
Proof. intros (X & s & H1 & H2 & H3) HV HB. exists X, s. split; [exact H1|]. split; [unfold budget in *; lia|lia]. Qed.
Lemma good_mono f G V B V' B' k0 {A} k (r : res A) G' : good f G V B k0 k r G' -> V <= V' -> B <= B' -> good f G V' B' k0 k r G'.
Proof.
  intros (H1 & H2 & H3) HV HB. split; [exact H1|]. split; [eapply bounded_mono; eassumption|]. destruct r; auto. eapply paid_mono; eassumption.
Qed.

(** One step after the other. *)
Lemma cwp_good {A C} f G k0 (p : prog A) (q : A -> prog C) V1 B1 V2 B2 :
  cwp G p (good f G V1 B1 k0) ->
  (forall a k G', kept (touches f) G G' -> paid G' V1 B1 (k0 + k) -> cwp G' (q a) (good f G' V2 B2 (k0 + k))) ->
  V1 <= V2 -> B1 <= B2 -> cwp G (bind p q) (good f G V2 B2 k0).
Proof.
  intros H1 H2 HV HB. apply cwp_bind. eapply cwp_mono; [exact H1|]. intros k r G' (HK & Hb & Hp). destruct r as [a| | |].
  - eapply cwp_mono; [apply (H2 a k G' HK Hp)|]. intros k2 r2 G2 (HK2 & Hb2 & Hp2). unfold good. split; [eapply kept_trans; eassumption|].
    split; [rewrite Nat.add_assoc; exact Hb2|]. destruct r2; auto. rewrite Nat.add_assoc. exact Hp2.
  - split; [exact HK|]. split; [eapply bounded_mono; [exact Hb|lia|lia]|exact I].
  - split; [exact HK|]. split; [eapply bounded_mono; [exact Hb|lia|lia]|exact I].
  - split; [exact HK|]. split; [eapply bounded_mono; [exact Hb|lia|lia]|exact I].
Qed.
Lemma good_push f G V B k0 v : paid G V B k0 -> 0 <= src_len v -> cwp G (c_push grow o v) (good f G (V + src_len v) (B + src_cost v + 3) k0).
Proof.
  intros Hp Hv. eapply cwp_mono; [apply push_paid; eassumption|]. intros k r G' (H1 & H2 & H3). split; [apply kept_data, H1|]. auto.
Qed.
Lemma good_tame {A} f G V B k0 (p : prog A) b Q : paid G V B k0 -> tame (field_of o f) b p Q -> cwp G p (good f G V (B + Z.of_nat b) k0).
Proof.
  intros Hp Ht. eapply cwp_mono; [apply (cwp_tame _ _ _ _ G Ht)|]. cbv beta. intros k r G' (H1 & H2 & H3).
  assert (Hp' : paid G' V (B + Z.of_nat b) (k0 + k)) by (apply paid_more; [eapply paid_kept; [apply field_buf|exact H2|exact Hp]|lia]).
  split; [apply kept_field, H2|]. split; [eapply paid_bounded, Hp'|]. destruct r; auto.
Qed.

Lemma good_set_new n f G V B k0 tb vl v : paid G V B k0 -> 0 <= src_len v ->
  cwp G (c_set_new grow n o f tb vl v) (good f G (V + zlen tb + zlen vl + src_len v) (B + 17 + zlen tb + zlen vl + src_cost v) k0).
Proof.
  intros Hp Hv. assert (Hc : 0 <= src_cost v) by (destruct v; cbn in *; unfold zlen; lia). pose proof (zlen_nonneg tb). pose proof (zlen_nonneg vl). unfold c_set_new.
  eapply (cwp_good f G); [apply good_push; [exact Hp|cbn; lia]|..]; cbn [src_len src_cost]; [|lia|lia]. intros _ k1 G1 HK1 Hp1.
  assert (HL : tame (field_of o f) 1 (load_slice (Buf o)) (fun _ => True)) by (eapply tame_mono; [apply tame_load_slice|reflexivity|intros l []|auto]).
  eapply (cwp_good f G1); [eapply good_tame; [exact Hp1|exact HL]|..]; [|lia|lia].
  intros b k2 G2 HK2 Hp2.
  eapply (cwp_good f G2); [eapply good_tame; [exact Hp2|apply tame_offsets_set_at]|..]; [|lia|lia].
  intros _ k3 G3 HK3 Hp3.
  eapply (cwp_good f G3); [apply good_push; [exact Hp3|cbn; lia]|..]; cbn [src_len src_cost]; [|lia|lia].
  intros _ k4 G4 HK4 Hp4. eapply cwp_mono; [apply good_push; [exact Hp4|exact Hv]|]. intros k r G' HG. eapply good_mono; [exact HG|lia|lia].
Qed.

Lemma good_stop {A} f G V B k0 (r : res A) : paid G V B k0 -> cwp G (Stop r) (good f G V B k0).
Proof.
  intros Hp. apply cwp_stop. split; [apply kept_refl|]. rewrite Nat.add_0_r. split; [eapply paid_bounded, Hp|]. destruct r; auto.
Qed.
Lemma good_lift {A C} f G V B k0 (r : res A) (q : A -> prog C) : paid G V B k0 ->
  (forall a, r = Ok a -> cwp G (q a) (good f G V B k0)) -> cwp G (bind (Stop r) q) (good f G V B k0).
Proof.
  intros Hp Hq. apply cwp_lift. assert (Hs : forall (r' : res C), match r' with Ok _ => False | _ => True end -> good f G V B k0 0 r' G).
  { intros r' Hr. split; [apply kept_refl|]. split; [rewrite Nat.add_0_r; eapply paid_bounded, Hp|]. destruct r'; auto. contradiction. }
  destruct r; [apply Hq; reflexivity|apply Hs; exact I..].
Qed.
Lemma good_weaken {A} f G V B V' B' k0 (p : prog A) : cwp G p (good f G V B k0) -> V <= V' -> B <= B' -> cwp G p (good f G V' B' k0).
Proof. intros H HV HB. eapply cwp_mono; [exact H|]. intros k r G' HG. eapply good_mono; eassumption. Qed.

Lemma good_append n f G V B k0 v : paid G V B k0 -> 0 <= src_len v -> src_cost v <= 2 * src_len v ->
  cwp G (c_append_bytes grow n o f v) (good f G (V + 20 + src_len v) (B + 40 + 2 * src_len v) k0).
Proof.
  intros Hp Hv Hv2. assert (Hc : 0 <= src_cost v) by (destruct v; cbn in *; unfold zlen; lia).
  assert (Hp2 : paid G (V + 20 + src_len v) (B + 40 + 2 * src_len v) k0) by (eapply paid_mono; [exact Hp|lia|lia]).
  unfold c_append_bytes. apply good_lift; [exact Hp2|]. intros vl Hvl. apply put_uvarint_len in Hvl.
  unfold c_appendSingle. apply good_lift; [exact Hp2|]. intros tb Htb. apply put_uvarint_len in Htb. unfold MaxVarintLen64 in *. clear Hp2.
  assert (Htb' : 0 <= zlen tb <= 10) by (unfold zlen; lia). assert (Hvl' : 0 <= zlen vl <= 10) by (unfold zlen; lia). clear Htb Hvl.
  eapply (cwp_good f G); [apply good_push; [exact Hp|cbn; lia]|..]; cbn [src_len src_cost]; [|lia|lia]. intros _ k1 G1 HK1 Hp1.
  assert (HL : tame (field_of o f) 1 (load_slice (Buf o)) (fun _ => True)) by (eapply tame_mono; [apply tame_load_slice|reflexivity|intros l []|auto]).
  eapply (cwp_good f G1); [eapply good_tame; [exact Hp1|exact HL]|..]; [|lia|lia]. intros b k2 G2 HK2 Hp2.
  assert (HL2 : tame (field_of o f) 3 (c_offsets_get n o f) (fun _ => True)) by (eapply tame_mono; [apply tame_offsets_get|reflexivity|intros l []|auto]).
  eapply (cwp_good f G2); [eapply good_tame; [exact Hp2|exact HL2]|..]; [|lia|lia]. intros [x ok] k3 G3 HK3 Hp3.
  assert (HL3 : tame (field_of o f) 7 (if ok : bool then ret tt else c_offsets_set n o f (u64 (hlen b))) (fun _ => True)) by (destruct ok; [exact I|apply tame_offsets_set_at]).
  eapply (cwp_good f G3); [eapply good_tame; [exact Hp3|exact HL3]|..]; [|lia|lia]. intros _ k4 G4 HK4 Hp4.
  eapply (cwp_good f G4); [apply good_push; [exact Hp4|cbn; lia]|..]; cbn [src_len src_cost]; [|lia|lia]. intros _ k5 G5 HK5 Hp5.
  eapply good_weaken; [apply good_push; [exact Hp5|exact Hv]|lia|lia].
Qed.
Lemma good_setSingle n f typ G V B k0 vl v : paid G V B k0 -> 0 <= src_len v -> G !! Off o (Z.to_nat f) = Some (Num offsetUnset) ->
  cwp G (c_setSingle grow n o f typ vl v) (good f G (V + 10 + zlen vl + src_len v) (B + 28 + zlen vl + src_cost v) k0).
Proof.
  intros Hp Hv Hf. assert (Hc : 0 <= src_cost v) by (destruct v; cbn in *; unfold zlen; lia). pose proof (zlen_nonneg vl).
  assert (Hp2 : paid G (V + 10 + zlen vl + src_len v) (B + 28 + zlen vl + src_cost v) k0) by (eapply paid_mono; [exact Hp|lia|lia]).
  unfold c_setSingle. apply good_lift; [exact Hp2|]. intros tb Htb. apply put_uvarint_len in Htb. unfold MaxVarintLen64 in *. clear Hp2.
  assert (Htb' : 0 <= zlen tb <= 10) by (unfold zlen; lia). clear Htb.
  unfold c_offsets_get. destruct (in_array n f).
  2:{ apply cwp_bind, cwp_stop. split; [apply kept_refl|]. split; [|exact I]. rewrite Nat.add_0_r. eapply paid_bounded. eapply paid_mono; [exact Hp|lia|lia]. }
  unfold bind, load_num. cbn [catch]. apply cwp_load. intros w Hw. rewrite Hf in Hw. injection Hw as <-. cbn [as_num].
  change (negb (offsetUnset =? offsetInMap)) with true. change (negb (offsetUnset =? offsetUnset)) with false. cbn [catch ret].
  eapply cwp_mono; [apply (good_set_new n f G V (B + 1) (k0 + 1) tb vl v); [apply paid_more; [exact Hp|lia]|exact Hv]|].
  intros k r G' (H1 & H2 & H3). split; [exact H1|].
  split; [|destruct r; auto]; replace (k0 + S k)%nat with (k0 + 1 + k)%nat by lia; [eapply bounded_mono; [exact H2|lia|lia]|eapply paid_mono; [exact H3|lia|lia]].
Qed.
Lemma good_adding n a G V B k0 : paid G V B k0 -> 0 <= added_size a -> (is_setter a -> G !! Off o (Z.to_nat (added_to a)) = Some (Num offsetUnset)) ->
  cwp G (c_adding grow n o a) (good (added_to a) G (V + 20 + added_size a) (B + 40 + 2 * added_size a) k0).
Proof.
  intros Hp Hs Hf. assert (Hp2 : paid G (V + 20 + added_size a) (B + 40 + 2 * added_size a) k0) by (eapply paid_mono; [exact Hp|lia|lia]).
  destruct a as [f v|T f v|f s]; cbn [c_adding added_size added_to is_setter] in *.
  - apply good_append; [exact Hp|exact Hs|]. destruct v; cbn in *; unfold zlen; lia.
  - unfold c_set. apply good_lift; [exact Hp2|]. intros [[typ vl] val] Ha. apply set_args_len in Ha as [H1 H2].
    eapply good_weaken; [apply good_setSingle; [exact Hp|cbn; apply zlen_nonneg|apply Hf; exact I]|..]; cbn [src_len src_cost]; lia.
  - unfold c_set_view. apply good_lift; [exact Hp2|]. intros vl Ha. apply put_uvarint_len in Ha. unfold MaxVarintLen64 in Ha.
    eapply good_weaken; [apply good_setSingle; [exact Hp|exact Hs|apply Hf; exact I]|..]; cbn [src_len src_cost]; unfold zlen; lia.
Qed.
Lemma build_bound n l : forall G V B k0, paid G V B k0 -> Forall (fun a => 0 <= added_size a) l ->
  (forall l1 a l2, l = l1 ++ a :: l2 -> is_setter a ->
     G !! Off o (Z.to_nat (added_to a)) = Some (Num offsetUnset) /\ Forall (fun b => Z.to_nat (added_to b) <> Z.to_nat (added_to a)) l1) ->
  cwp G (c_building grow n o l) (fun k r G' => bounded (V + 20 * zlen l + total_size l) (B + 40 * zlen l + 2 * total_size l) (k0 + k)).
Proof.
  induction l as [|a l IH]; intros G V B k0 Hp Hs Hf; cbn [c_building total_size].
  - apply cwp_ret. rewrite Nat.add_0_r. eapply bounded_mono; [eapply paid_bounded, Hp|..]; unfold zlen; cbn [length]; lia.
  - apply Forall_cons in Hs as [Ha Hs].
    assert (Ht : 0 <= total_size l). { clear -Hs. induction Hs; cbn; lia. }
    assert (Hz : zlen (a :: l) = zlen l + 1) by (unfold zlen; cbn [length]; lia). pose proof (zlen_nonneg l).
    apply cwp_bind. eapply cwp_mono; [apply good_adding; [exact Hp|exact Ha|]|].
    + intros Hset. apply (Hf [] a l eq_refl Hset).
    + intros k r G' (H1 & H2 & H3). destruct r as [u| | |]; [|eapply bounded_mono; [exact H2|lia|lia]..].
      eapply cwp_mono; [apply (IH G' _ _ _ H3 Hs)|].
      * intros l1 b l2 -> Hset. destruct (Hf (a :: l1) b l2 eq_refl Hset) as [E1 E2]. apply Forall_cons in E2 as [Ea E2]. split; [|exact E2].
        apply H1; [|exact E1]. intros [[(x & j & H9)|H9]|[H9|[H9|[t H9]]]]; try discriminate H9. injection H9 as H9. congruence.
      * cbv beta. intros k2 r2 G2 Hb. rewrite Nat.add_assoc. eapply bounded_mono; [exact Hb|lia|lia].
Qed.
End Amortised.

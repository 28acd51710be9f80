(** * Offsets is a finite map *)
From Verif Require Import Runtime VarintFacts.
From Coq Require Import ZifyBool.

(** The content of the overflow map. *)
Definition mget (m : option (gmap Z Z)) (k : Z) : option Z :=
  match m with Some m => m !! k | None => None end.

(** [f] is an index of the array. *)
Definition in_range (o : offsets) (f : Z) : Prop := 0 <= f < zlen (oa o).

(** The invariant stated in the comment of offsets.go:21-25. *)
Definition owf (o : offsets) : Prop :=
  (forall f x, oa o !! f = Some x -> 0 <= x <= 65535) /\
  (forall f, is_Some (mget (om o) f) <-> 0 <= f /\ oa o !! Z.to_nat f = Some 65535) /\
  (forall f x, mget (om o) f = Some x -> 65534 < x < 2 ^ 64).

(** The abstract map. *)
Definition ofun (o : offsets) (f : Z) : option Z :=
  match offsets_get o f with Ok (x, true) => Some x | _ => None end.

Lemma arr_get_ok a f x : 0 <= f -> a !! Z.to_nat f = Some x -> arr_get a f = Ok x.
Proof.
  intros Hf Hx. unfold arr_get.
  pose proof (lookup_lt_Some _ _ _ Hx). unfold zlen.
  replace ((0 <=? f) && (f <? Z.of_nat (length a))) with true by lia. rewrite Hx. reflexivity.
Qed.

Lemma arr_get_range a f : 0 <= f < zlen a -> exists x, a !! Z.to_nat f = Some x /\ arr_get a f = Ok x.
Proof.
  intros Hf. destruct (lookup_lt_is_Some_2 a (Z.to_nat f)) as [x Hx].
  { unfold zlen in Hf. lia. }
  exists x. split; [exact Hx|]. apply arr_get_ok; [lia|exact Hx].
Qed.

Lemma arr_set_ok a f v : 0 <= f < zlen a -> arr_set a f v = Ok (<[Z.to_nat f := v]> a).
Proof. intros Hf. unfold arr_set. replace ((0 <=? f) && (f <? zlen a)) with true by lia. reflexivity. Qed.

Lemma zlen_insert {A} (a : list A) i v : zlen (<[i := v]> a) = zlen a.
Proof. unfold zlen. rewrite insert_length. reflexivity. Qed.

Lemma ofun_eq o f :
  owf o -> in_range o f ->
  exists x, oa o !! Z.to_nat f = Some x /\ 0 <= x <= 65535 /\
    ofun o f = (if x =? 65535 then mget (om o) f else if x =? 0 then None else Some x) /\
    (x = 65535 -> is_Some (mget (om o) f)).
Proof.
  intros (Hr & Hm & Hv) Hf. destruct (arr_get_range _ _ Hf) as (x & Hx & Hg).
  exists x. split; [exact Hx|]. split; [eapply Hr; exact Hx|].
  unfold ofun, offsets_get. rewrite Hg. cbn [rbind]. unfold offsetInMap, offsetUnset.
  destruct (Z.eqb_spec x 65535) as [->|Hne]; cbn [negb].
  - split.
    + destruct (proj2 (Hm f)) as [y Hy]; [split; [apply Hf|exact Hx]|].
      unfold map_get. unfold mget in *. destruct (om o) as [m|]; [|discriminate].
      rewrite Hy. reflexivity.
    + intros _. apply Hm. split; [apply Hf|exact Hx].
  - split; [|congruence]. destruct (Z.eqb_spec x 0); reflexivity.
Qed.

Lemma ofun_pos o f x : owf o -> in_range o f -> ofun o f = Some x -> 0 < x < 2 ^ 64.
Proof.
  intros Hwf Hf Hx. destruct (ofun_eq o f Hwf Hf) as (y & Hy & Hr & He & _).
  rewrite He in Hx. destruct Hwf as (_ & _ & Hv).
  destruct (Z.eqb_spec y 65535).
  - apply Hv in Hx. lia.
  - destruct (Z.eqb_spec y 0); [discriminate|]. injection Hx as <-. pows. lia.
Qed.

Lemma offsets_get_eq o f :
  owf o -> in_range o f ->
  match ofun o f with
  | Some x => offsets_get o f = Ok (x, true)
  | None => offsets_get o f = Ok (0, false)
  end.
Proof.
  intros Hwf Hf. destruct (ofun_eq o f Hwf Hf) as (y & Hy & Hr & He & Hs).
  rewrite He. unfold offsets_get. rewrite (arr_get_ok _ _ y) by (auto; apply Hf). cbn [rbind].
  unfold offsetInMap, offsetUnset.
  destruct (Z.eqb_spec y 65535) as [->|Hne]; cbn [negb].
  - destruct (Hs eq_refl) as [x Hx]. rewrite Hx.
    unfold map_get, mget in *. destruct (om o); [|discriminate]. rewrite Hx. reflexivity.
  - destruct (Z.eqb_spec y 0) as [->|]; reflexivity.
Qed.

Lemma ofun_out o f : ~ in_range o f -> ofun o f = None.
Proof.
  intros H. unfold ofun, offsets_get, arr_get, in_range in *.
  destruct ((0 <=? f) && (f <? zlen (oa o))) eqn:E; [lia|reflexivity].
Qed.

Lemma mget_insert m k v k' :
  mget (Some (<[k := v]> m)) k' = if k =? k' then Some v else m !! k'.
Proof.
  cbn [mget]. destruct (Z.eqb_spec k k') as [->|Hne].
  - apply lookup_insert.
  - apply lookup_insert_ne. exact Hne.
Qed.

Lemma mget_delete m k k' :
  mget (map_delete m k) k' = if k =? k' then None else mget m k'.
Proof.
  destruct m as [m|]; cbn [mget map_delete].
  - destruct (Z.eqb_spec k k') as [->|Hne].
    + apply lookup_delete.
    + apply lookup_delete_ne. exact Hne.
  - destruct (k =? k'); reflexivity.
Qed.

(** The abstract map is determined by the array cell and the map entry. *)
Definition cell (x : option Z) (y : option Z) : option Z :=
  match x with
  | None => None
  | Some x => if x =? 65535 then Some (default 0 y) else if x =? 0 then None else Some x
  end.

Lemma ofun_cell o f :
  ofun o f = if 0 <=? f then cell (oa o !! Z.to_nat f) (mget (om o) f) else None.
Proof.
  unfold ofun, offsets_get, arr_get.
  destruct (Z.leb_spec 0 f) as [Hf|Hf]; cbn [andb]; [|reflexivity].
  destruct (Z.ltb_spec f (zlen (oa o))) as [Hlt|Hge].
  - destruct (oa o !! Z.to_nat f) as [x|]; [|reflexivity]. cbn [rbind cell].
    unfold offsetInMap, offsetUnset. destruct (x =? 65535); cbn [negb].
    + destruct (om o); reflexivity.
    + destruct (x =? 0); reflexivity.
  - cbn [rbind]. rewrite lookup_ge_None_2; [reflexivity|]. unfold zlen in Hge. lia.
Qed.

Lemma offsets_set_ok o f x :
  owf o -> in_range o f -> 0 <= x < 2 ^ 64 ->
  exists o', offsets_set o f x = Ok o' /\ owf o' /\ zlen (oa o') = zlen (oa o) /\
    ofun o' f = (if x =? 0 then None else Some x) /\
    (forall g, g <> f -> ofun o' g = ofun o g) /\
    (x <= 65534 -> om o = None -> om o' = None).
Proof.
  intros Hwf Hf Hx. pose proof Hwf as (Hr & Hm & Hv).
  pose proof Hf as [Hf0 Hf1].
  destruct (arr_get_range _ _ Hf) as (y & Hy & Hg).
  unfold offsets_set. unfold offsetMaxInArray, offsetInMap.
  assert (Hlk : forall v g, 0 <= g -> <[Z.to_nat f:=v]> (oa o) !! Z.to_nat g =
            if f =? g then Some v else oa o !! Z.to_nat g).
  { intros v g Hg0. destruct (Z.eqb_spec f g) as [->|Hne].
    - apply list_lookup_insert. unfold zlen in Hf1. lia.
    - apply list_lookup_insert_ne. lia. }
  assert (Hr' : forall v, 0 <= v <= 65535 ->
     forall g z, <[Z.to_nat f:=v]> (oa o) !! g = Some z -> 0 <= z <= 65535).
  { intros v Hvr g z Hz. destruct (decide (Z.to_nat f = g)) as [<-|Hne].
    - rewrite list_lookup_insert in Hz by (unfold zlen in Hf1; lia). injection Hz as <-. lia.
    - rewrite list_lookup_insert_ne in Hz by exact Hne. eapply Hr; exact Hz. }
  destruct (Z.leb_spec x 65534) as [Hle|Hgt].
  - rewrite Hg. cbn [rbind]. rewrite arr_set_ok by exact Hf. cbn [rbind].
    unfold u16. rewrite Z.mod_small by lia.
    set (m' := if y =? 65535 then map_delete (om o) f else om o).
    assert (Hm' : forall g, mget m' g = if f =? g then None else mget (om o) g).
    { intros g. subst m'. destruct (Z.eqb_spec y 65535) as [->|Hne].
      - apply mget_delete.
      - destruct (Z.eqb_spec f g) as [->|]; [|reflexivity].
        destruct (mget (om o) g) as [z|] eqn:Hz; [|reflexivity].
        exfalso. destruct (proj1 (Hm g)) as [_ H]; [eauto|]. congruence. }
    exists (mkOffsets (<[Z.to_nat f:=x]> (oa o)) m'). split_and!.
    + reflexivity.
    + split_and!; cbn [oa om].
      * apply Hr'. lia.
      * intros g. rewrite Hm'. destruct (Z.eqb_spec f g) as [->|Hne].
        -- split; [intros [? ?]; discriminate|]. intros [_ H]. rewrite Hlk in H by lia.
           rewrite Z.eqb_refl in H. injection H as H. lia.
        -- rewrite Hm. split; intros [H0 H]; (split; [exact H0|]).
           ++ rewrite Hlk by lia. replace (f =? g) with false by lia. exact H.
           ++ rewrite Hlk in H by lia. replace (f =? g) with false in H by lia. exact H.
      * intros g z. rewrite Hm'. destruct (f =? g); [discriminate|apply Hv].
    + cbn [oa]. apply zlen_insert.
    + rewrite ofun_cell. cbn [oa om]. replace (0 <=? f) with true by lia.
      rewrite Hlk, Z.eqb_refl by lia. cbn [cell]. replace (x =? 65535) with false by lia. reflexivity.
    + intros g Hne. rewrite !ofun_cell. cbn [oa om]. destruct (Z.leb_spec 0 g); [|reflexivity].
      rewrite Hlk, Hm' by lia. replace (f =? g) with false by lia. reflexivity.
    + intros _ Hn. cbn [om]. subst m'. rewrite Hn. destruct (y =? 65535); reflexivity.
  - rewrite arr_set_ok by exact Hf. cbn [rbind].
    set (m0 := match om o with Some m => m | None => ∅ end).
    assert (Hm0 : forall g, m0 !! g = mget (om o) g).
    { intros g. subst m0. destruct (om o); [reflexivity|apply lookup_empty]. }
    eexists. split; [reflexivity|]. split_and!; cbn [oa om].
    + split_and!; cbn [oa om].
      * apply Hr'. lia.
      * intros g. rewrite mget_insert, Hm0. destruct (Z.eqb_spec f g) as [->|Hne].
        -- split; [|eauto]. intros _. split; [lia|]. rewrite Hlk by lia. rewrite Z.eqb_refl. reflexivity.
        -- rewrite Hm. split; intros [H0 H]; (split; [exact H0|]).
           ++ rewrite Hlk by lia. replace (f =? g) with false by lia. exact H.
           ++ rewrite Hlk in H by lia. replace (f =? g) with false in H by lia. exact H.
      * intros g z. rewrite mget_insert, Hm0. destruct (f =? g); [|apply Hv].
        intros [= <-]. lia.
    + apply zlen_insert.
    + rewrite ofun_cell. cbn [oa om]. replace (0 <=? f) with true by lia.
      rewrite Hlk, Z.eqb_refl by lia. cbn [cell]. rewrite mget_insert, !Z.eqb_refl. cbn.
      replace (x =? 0) with false by lia. reflexivity.
    + intros g Hne. rewrite !ofun_cell. cbn [oa om]. destruct (Z.leb_spec 0 g); [|reflexivity].
      rewrite Hlk, mget_insert, Hm0 by lia. replace (f =? g) with false by lia. reflexivity.
    + intros; lia.
Qed.

Lemma offsets_set_out o f x : ~ in_range o f -> offsets_set o f x = Panic.
Proof.
  intros H. unfold offsets_set, arr_get, arr_set, in_range in *.
  destruct ((0 <=? f) && (f <? zlen (oa o))) eqn:E; [lia|].
  destruct (x <=? offsetMaxInArray); reflexivity.
Qed.

Lemma offsets_get_out o f : ~ in_range o f -> offsets_get o f = Panic.
Proof.
  intros H. unfold offsets_get, arr_get, in_range in *.
  destruct ((0 <=? f) && (f <? zlen (oa o))) eqn:E; [lia|reflexivity].
Qed.

Lemma offsets_clear_ok o :
  owf (offsets_clear o) /\ zlen (oa (offsets_clear o)) = zlen (oa o) /\
  (forall f, ofun (offsets_clear o) f = None) /\
  (om o = None -> om (offsets_clear o) = None).
Proof.
  unfold offsets_clear, offsetUnset.
  assert (Hc : forall (a : list Z) i x, map (fun _ => 0) a !! i = Some x -> x = 0).
  { intros a i x H. change (map (fun _ : Z => 0) a) with ((fun _ : Z => 0) <$> a) in H.
    rewrite list_lookup_fmap in H. destruct (a !! i); [|discriminate].
    injection H as <-. reflexivity. }
  assert (Hn : forall f, mget (match om o with Some _ => Some ∅ | None => None end) f = None).
  { intros f. destruct (om o); [apply lookup_empty|reflexivity]. }
  split_and!.
  - split_and!; cbn [oa om].
    + intros f x H. apply Hc in H. lia.
    + intros f. rewrite Hn. split; [intros [? ?]; discriminate|].
      intros [_ H]. apply Hc in H. discriminate.
    + intros f x. rewrite Hn. discriminate.
  - cbn [oa]. unfold zlen. rewrite map_length. reflexivity.
  - intros f. rewrite ofun_cell. cbn [oa om]. destruct (0 <=? f); [|reflexivity].
    destruct (map (fun _ => 0) (oa o) !! Z.to_nat f) as [x|] eqn:E; [|reflexivity].
    apply Hc in E. subst x. reflexivity.
  - cbn [om]. intros ->. reflexivity.
Qed.

Lemma offsets_zero_ok n :
  owf (offsets_zero n) /\ zlen (oa (offsets_zero n)) = Z.of_nat n /\
  (forall f, ofun (offsets_zero n) f = None).
Proof.
  unfold offsets_zero. split_and!.
  - split_and!; cbn [oa om].
    + intros f x H. apply lookup_replicate in H as [-> _]. lia.
    + intros f. split; [intros [? ?]; discriminate|].
      intros [_ H]. apply lookup_replicate in H as [H _]. discriminate.
    + intros f x H. discriminate.
  - cbn [oa]. unfold zlen. rewrite replicate_length. reflexivity.
  - intros f. rewrite ofun_cell. cbn [oa om]. destruct (0 <=? f); [|reflexivity].
    destruct (replicate n 0 !! Z.to_nat f) as [x|] eqn:E; [|reflexivity].
    apply lookup_replicate in E as [-> _]. reflexivity.
Qed.

(** ** Shifting the offsets (zeropb.go:364-381) *)

Definition shift (e r x : Z) : Z := if e <? x then x - r else x.

(** One iteration of the map loop either does nothing, panics, or overwrites
    one array cell and inserts/deletes/keeps the entry of its own key; which of
    these depends only on that cell and entry. *)
Definition map_upd (k : Z) (u : option (option Z)) (m : gmap Z Z) : gmap Z Z :=
  match u with
  | None => m
  | Some None => delete k m
  | Some (Some v) => <[k := v]> m
  end.

Lemma adjust_map_key_local e r k (a : list Z) (m : gmap Z Z) :
  let same (a' : list Z) (m' : gmap Z Z) := zlen a' = zlen a /\ (0 <= k -> a' !! Z.to_nat k = a !! Z.to_nat k) /\ m' !! k = m !! k in
  (forall a' m', same a' m' -> adjust_map_key e r k (mkOffsets a' (Some m')) = Ok (mkOffsets a' (Some m'))) \/
  (forall a' m', same a' m' -> adjust_map_key e r k (mkOffsets a' (Some m')) = Panic) \/
  (0 <= k /\ exists v u, forall a' m', same a' m' ->
     adjust_map_key e r k (mkOffsets a' (Some m')) =
       Ok (mkOffsets (<[Z.to_nat k := v]> a') (Some (map_upd k u m')))).
Proof.
  intros same.
  destruct (m !! k) as [x|] eqn:Ex.
  2:{ left. intros a' m' (_ & _ & Hm). unfold adjust_map_key. cbn [om]. rewrite Hm, ?Ex. reflexivity. }
  destruct (e <? x) eqn:El.
  2:{ left. intros a' m' (_ & _ & Hm). unfold adjust_map_key. cbn [om].
      rewrite Hm, ?Ex, El. reflexivity. }
  destruct ((0 <=? k) && (k <? zlen a)) eqn:Er.
  2:{ right. left. intros a' m' (Hl & _ & Hm). unfold adjust_map_key. cbn [om].
      rewrite Hm, ?Ex, El. apply offsets_set_out. unfold in_range. cbn [oa]. lia. }
  right. right. split; [lia|].
  destruct (lookup_lt_is_Some_2 a (Z.to_nat k)) as [y Hy]; [unfold zlen in Er; lia|].
  set (z := u64 (x - r)).
  exists (if z <=? 65534 then u16 z else 65535),
         (if z <=? 65534 then if y =? 65535 then Some None else None else Some (Some z)).
  intros a' m' (Hl & Ha & Hm). unfold adjust_map_key. cbn [om]. rewrite Hm, ?Ex, El. fold z.
  unfold offsets_set, offsetMaxInArray, offsetInMap. cbn [oa om].
  rewrite (arr_get_ok a' k y) by (rewrite ?Ha by lia; auto; lia).
  rewrite !arr_set_ok by lia. cbn [rbind].
  destruct (z <=? 65534); cbn [map_upd]; [|reflexivity].
  destruct (y =? 65535); reflexivity.
Qed.

Lemma map_upd_comm k1 k2 u1 u2 (m : gmap Z Z) :
  k1 <> k2 -> map_upd k1 u1 (map_upd k2 u2 m) = map_upd k2 u2 (map_upd k1 u1 m).
Proof.
  intros Hne. destruct u1 as [[v1|]|]; destruct u2 as [[v2|]|]; cbn [map_upd]; try reflexivity.
  - apply insert_commute. exact Hne.
  - symmetry. apply delete_insert_ne. congruence.
  - apply delete_insert_ne. congruence.
  - apply delete_commute.
Qed.

Lemma map_upd_ne k1 k2 u (m : gmap Z Z) : k1 <> k2 -> map_upd k1 u m !! k2 = m !! k2.
Proof.
  intros Hne. destruct u as [[v|]|]; cbn [map_upd]; [apply lookup_insert_ne|apply lookup_delete_ne|reflexivity];
    exact Hne.
Qed.

Lemma adjust_map_key_comm e r k1 k2 o :
  k1 <> k2 ->
  (let* o := adjust_map_key e r k1 o in adjust_map_key e r k2 o) =
  (let* o := adjust_map_key e r k2 o in adjust_map_key e r k1 o).
Proof.
  intros Hne. destruct o as [a [m|]]; [|reflexivity].
  pose proof (adjust_map_key_local e r k1 a m) as H1. pose proof (adjust_map_key_local e r k2 a m) as H2.
  cbn zeta in H1, H2.
  destruct H1 as [I1|[P1|(K1 & v1 & u1 & E1)]]; destruct H2 as [I2|[P2|(K2 & v2 & u2 & E2)]];
    rewrite ?I1, ?P1, ?E1, ?I2, ?P2, ?E2 by auto; cbn [rbind];
    rewrite ?I1, ?P1, ?E1, ?I2, ?P2, ?E2; try reflexivity;
    try (rewrite zlen_insert, map_upd_ne by congruence; split_and!; auto; intros;
         apply list_lookup_insert_ne; lia);
    auto.
  do 2 f_equal.
  - apply list_insert_commute. lia.
  - f_equal. apply map_upd_comm. congruence.
Qed.

Lemma adjust_map_keys_perm e r ks1 ks2 o :
  NoDup ks1 -> ks1 ≡ₚ ks2 -> adjust_map_keys ks1 e r o = adjust_map_keys ks2 e r o.
Proof.
  intros Hnd Hp. revert o Hnd. induction Hp as [|k ks1 ks2 Hp IH|k1 k2 ks|ks1 ks2 ks3 Hp1 IH1 Hp2 IH2];
    intros o Hnd.
  - reflexivity.
  - cbn [adjust_map_keys]. apply NoDup_cons in Hnd as [_ Hnd].
    destruct (adjust_map_key e r k o); cbn [rbind]; try reflexivity. apply IH, Hnd.
  - apply NoDup_cons in Hnd as [Hni _].
    assert (Hne : k2 <> k1) by (intros ->; apply Hni; left).
    pose proof (adjust_map_key_comm e r k2 k1 o Hne) as Hc.
    cbn [adjust_map_keys].
    destruct (adjust_map_key e r k2 o) as [o1| | |]; destruct (adjust_map_key e r k1 o) as [o2| | |];
      cbn [rbind] in *; try congruence;
      try (rewrite Hc; reflexivity); try (rewrite <- Hc; reflexivity).
  - etransitivity; [apply IH1; assumption|]. apply IH2.
    rewrite <- Hp1. exact Hnd.
Qed.

Lemma adjust_map_key_ok e r k o :
  owf o -> 0 <= r ->
  (forall x, ofun o k = Some x -> e < x -> 0 < x - r) ->
  exists o', adjust_map_key e r k o = Ok o' /\ owf o' /\ zlen (oa o') = zlen (oa o) /\
    (forall f, f <> k -> ofun o' f = ofun o f /\ mget (om o') f = mget (om o) f) /\
    ofun o' k = match mget (om o) k with
                | None => ofun o k
                | Some x => Some (shift e r x)
                end /\
    (om o = None -> om o' = None).
Proof.
  intros Hwf Hr Hpos. unfold adjust_map_key.
  assert (Htriv : ofun o k = match mget (om o) k with
     | None => ofun o k | Some x => Some x end).
  { destruct (mget (om o) k) as [x|] eqn:Ex; [|reflexivity].
    destruct Hwf as (_ & Hm & _). destruct (proj1 (Hm k)) as [Hk0 Hk]; [eauto|].
    rewrite ofun_cell. replace (0 <=? k) with true by lia. rewrite Hk, Ex. reflexivity. }
  destruct (om o) as [m|] eqn:Eo.
  2:{ exists o. cbn [mget] in *. rewrite Eo. split_and!; auto. }
  cbn [mget] in *. destruct (m !! k) as [x|] eqn:Ex.
  2:{ exists o. rewrite Eo. split_and!; auto. }
  assert (Hrange : in_range o k).
  { destruct Hwf as (_ & Hm & _). destruct (proj1 (Hm k)) as [Hk0 Hk].
    { rewrite Eo. cbn. eauto. }
    split; [lia|]. apply lookup_lt_Some in Hk. unfold zlen. lia. }
  pose proof (ofun_pos o k x Hwf Hrange Htriv) as Hx64.
  unfold shift. destruct (Z.ltb_spec e x) as [Hlt|Hge].
  - pose proof (Hpos x Htriv Hlt) as Hp.
    unfold u64. rewrite Z.mod_small by (pows; lia).
    destruct (offsets_set_ok o k (x - r) Hwf Hrange ltac:(lia)) as (o' & -> & Hwf' & Hl & Hk & Hne & Hnone).
    exists o'. split_and!; try assumption; try reflexivity.
    + intros f Hf. split; [apply Hne, Hf|].
      pose proof (Hne f Hf) as Hfe. rewrite !ofun_cell in Hfe.
      (* the map entries of other keys are untouched *)
      clear - Hwf Hwf' Hf Eo Hl Hne Hfe.
      assert (Hcases : forall o, owf o -> forall f x, mget (om o) f = Some x <->
                 (0 <= f /\ ofun o f = Some x /\ 65534 < x)).
      { clear. intros o Hwf f x. pose proof Hwf as (Hr & Hm & Hv). split.
        - intros H. destruct (proj1 (Hm f)) as [H0 H1]; [eauto|].
          split; [lia|]. pose proof (Hv _ _ H). split; [|lia].
          rewrite ofun_cell. replace (0 <=? f) with true by lia. rewrite H1, H. reflexivity.
        - intros (H0 & H1 & H2). rewrite ofun_cell in H1. replace (0 <=? f) with true in H1 by lia.
          destruct (oa o !! Z.to_nat f) as [y|] eqn:Ey; [|discriminate]. cbn [cell] in H1.
          destruct (Z.eqb_spec y 65535) as [->|].
          + destruct (proj2 (Hm f)) as [z Hz]; [split; [lia|exact Ey]|].
            rewrite Hz in H1. cbn in H1. congruence.
          + destruct (Z.eqb_spec y 0); [discriminate|]. injection H1 as <-.
            apply Hr in Ey. lia. }
      change (m !! f) with (mget (Some m) f). rewrite <- Eo.
      destruct (mget (om o) f) as [y|] eqn:Ey.
      { apply Hcases; [assumption|]. apply Hcases in Ey; [|assumption].
        rewrite (Hne f Hf). exact Ey. }
      destruct (mget (om o') f) as [y|] eqn:Ey'; [|reflexivity].
      apply Hcases in Ey'; [|assumption]. rewrite (Hne f Hf) in Ey'.
      apply Hcases in Ey'; [|assumption]. congruence.
    + rewrite Hk. replace (x - r =? 0) with false by lia. reflexivity.
    + discriminate.
  - exists o. rewrite Eo. split_and!; auto.
Qed.

Lemma adjust_map_keys_ok e r ks o :
  owf o -> 0 <= r -> NoDup ks ->
  (forall f x, f ∈ ks -> ofun o f = Some x -> e < x -> 0 < x - r) ->
  exists o', adjust_map_keys ks e r o = Ok o' /\ owf o' /\ zlen (oa o') = zlen (oa o) /\
    (forall f, ofun o' f =
       if decide (f ∈ ks) then
         match mget (om o) f with None => ofun o f | Some x => Some (shift e r x) end
       else ofun o f) /\
    (om o = None -> om o' = None).
Proof.
  intros Hwf Hr Hnd Hpos. revert o Hwf Hpos. induction ks as [|k ks IH]; intros o Hwf Hpos.
  - exists o. split_and!; auto.
  - apply NoDup_cons in Hnd as [Hni Hnd]. cbn [adjust_map_keys].
    destruct (adjust_map_key_ok e r k o Hwf Hr) as (o1 & -> & Hwf1 & Hl1 & Hne1 & Hk1 & Hn1).
    { intros x. apply Hpos. left. }
    cbn [rbind].
    destruct (IH Hnd o1 Hwf1) as (o2 & -> & Hwf2 & Hl2 & Hf2 & Hn2).
    { intros f x Hin Hx He.
      assert (Hne : f <> k) by (intros ->; contradiction).
      rewrite (proj1 (Hne1 f Hne)) in Hx.
      eapply Hpos; [right; exact Hin|exact Hx|exact He]. }
    exists o2. split_and!; try assumption; try reflexivity; try congruence; [|tauto].
    intros f. rewrite Hf2.
    destruct (decide (f = k)) as [->|Hne].
    + destruct (decide (k ∈ ks)); [contradiction|].
      destruct (decide (k ∈ k :: ks)) as [|Hnot]; [|exfalso; apply Hnot; left]. exact Hk1.
    + destruct (Hne1 f Hne) as [-> ->].
      destruct (decide (f ∈ ks)) as [Hin|Hnin]; destruct (decide (f ∈ k :: ks)) as [Hin'|Hnin'];
        try reflexivity.
      * exfalso. apply Hnin'. right. exact Hin.
      * apply elem_of_cons in Hin' as [|]; contradiction.
Qed.

Lemma adjust_array_ok o e r :
  owf o -> 0 <= e -> 0 <= r -> (forall f x, ofun o f = Some x -> e < x -> 0 < x - r) ->
  let o1 := mkOffsets (adjust_array (oa o) e r) (om o) in
  owf o1 /\ zlen (oa o1) = zlen (oa o) /\
  (forall f, ofun o1 f = match mget (om o) f with
                         | Some x => ofun o f
                         | None => option_map (shift e r) (ofun o f) end).
Proof.
  intros Hwf He Hr Hpos o1. pose proof Hwf as (Hrng & Hm & Hv).
  set (g := fun offset => if negb (offset =? 65535) && (e <? offset)
         then u16 (offset - u16 r) else offset).
  assert (Hlk : forall i, oa o1 !! i = g <$> (oa o !! i)).
  { intros i. unfold o1. cbn [oa]. unfold adjust_array.
    change (map ?h ?l) with (h <$> l). apply list_lookup_fmap. }
  assert (Hg : forall i x, oa o !! i = Some x ->
      g x = (if x =? 65535 then 65535 else shift e r x) /\
      (x <> 65535 -> 0 <= shift e r x <= 65534 /\ (x <> 0 <-> shift e r x <> 0))).
  { intros i x Hx. unfold g, shift. pose proof (Hrng _ _ Hx) as Hb.
    destruct (Z.eqb_spec x 65535) as [->|Hne]; cbn [negb andb]; [split; [reflexivity|lia]|].
    destruct (Z.ltb_spec e x) as [Hlt|Hge]; [|split; [reflexivity|lia]].
    assert (Hp : 0 < x - r).
    { apply (Hpos (Z.of_nat i)); [|lia]. rewrite ofun_cell. replace (0 <=? Z.of_nat i) with true by lia.
      rewrite Nat2Z.id, Hx. cbn [cell]. replace (x =? 65535) with false by lia.
      replace (x =? 0) with false by lia. reflexivity. }
    unfold u16. rewrite (Z.mod_small r) by lia. rewrite Z.mod_small by lia. split; [reflexivity|lia]. }
  split_and!.
  - split_and!.
    + intros f x Hx. rewrite Hlk in Hx. destruct (oa o !! f) as [y|] eqn:Ey; [|discriminate].
      injection Hx as <-. destruct (Hg _ _ Ey) as [-> Hs]. destruct (Z.eqb_spec y 65535); lia.
    + intros f. unfold o1 at 1. cbn [om]. rewrite Hm. rewrite Hlk.
      split; intros [H0 H1]; (split; [exact H0|]).
      * rewrite H1. cbn. destruct (Hg _ _ H1) as [Hq _]. rewrite ?Hq. reflexivity.
      * destruct (oa o !! Z.to_nat f) as [y|] eqn:Ey; [|discriminate].
        injection H1 as H1. destruct (Hg _ _ Ey) as [Hgy Hs]. rewrite Hgy in H1.
        destruct (Z.eqb_spec y 65535); [congruence|lia].
    + exact Hv.
  - unfold o1. cbn [oa]. unfold adjust_array, zlen. rewrite map_length. reflexivity.
  - intros f. rewrite !ofun_cell. rewrite Hlk. unfold o1 at 1. cbn [om].
    destruct (Z.leb_spec 0 f) as [Hf|Hf].
    2:{ destruct (mget (om o) f); reflexivity. }
    destruct (oa o !! Z.to_nat f) as [y|] eqn:Ey.
    2:{ destruct (mget (om o) f); reflexivity. }
    cbn. destruct (Hg _ _ Ey) as [-> Hs].
    destruct (Z.eqb_spec y 65535) as [->|Hne].
    + cbn. destruct (proj2 (Hm f)) as [z Hz]; [split; [lia|exact Ey]|]. rewrite Hz. reflexivity.
    + destruct (mget (om o) f) as [z|] eqn:Ez.
      { exfalso. destruct (proj1 (Hm f)) as [_ H]; [eauto|]. congruence. }
      destruct (Hs Hne) as [Hb Hz]. replace (shift e r y =? 65535) with false by lia.
      destruct (Z.eqb_spec y 0) as [->|Hy0].
      * replace (shift e r 0 =? 0) with true by lia. reflexivity.
      * replace (shift e r y =? 0) with false by lia. reflexivity.
Qed.

Lemma map_keys_nodup o : NoDup (map_keys o).
Proof.
  unfold map_keys. destruct (om o) as [m|]; [|constructor]. apply NoDup_fst_map_to_list.
Qed.

Lemma elem_of_map_keys o f : f ∈ map_keys o <-> is_Some (mget (om o) f).
Proof.
  unfold map_keys, mget. destruct (om o) as [m|].
  - rewrite elem_of_list_fmap. split.
    + intros ([k v] & -> & H). apply elem_of_map_to_list in H. cbn. eauto.
    + intros [v H]. exists (f, v). split; [reflexivity|]. apply elem_of_map_to_list, H.
  - split; [intros H; inversion H|intros [? ?]; discriminate].
Qed.

(** The two loops together shift every offset above [e]. *)
Lemma adjust_all_ok o e r ks :
  owf o -> 0 <= e -> 0 <= r -> (forall f x, ofun o f = Some x -> e < x -> 0 < x - r) ->
  let o1 := mkOffsets (adjust_array (oa o) e r) (om o) in
  ks ≡ₚ map_keys o1 ->
  exists o', adjust_map_keys ks e r o1 = Ok o' /\ owf o' /\ zlen (oa o') = zlen (oa o) /\
    (forall f, ofun o' f = option_map (shift e r) (ofun o f)) /\
    (om o = None -> om o' = None).
Proof.
  intros Hwf He Hr Hpos o1 Hks.
  destruct (adjust_array_ok o e r Hwf He Hr Hpos) as (Hwf1 & Hl1 & Hf1). fold o1 in Hwf1, Hl1, Hf1.
  assert (Hnd : NoDup ks).
  { rewrite Hks. apply map_keys_nodup. }
  assert (Hom : om o1 = om o) by reflexivity.
  destruct (adjust_map_keys_ok e r ks o1 Hwf1 Hr Hnd) as (o2 & Ho2 & Hwf2 & Hl2 & Hf2 & Hn2).
  { intros f x Hin Hx Hlt. rewrite Hks in Hin. apply elem_of_map_keys in Hin as [y Hy].
    rewrite Hom in Hy. rewrite Hf1, Hy in Hx. eapply Hpos; eassumption. }
  exists o2. split_and!; try assumption; try congruence.
  intros f. rewrite Hf2, Hf1, Hom.
  destruct (decide (f ∈ ks)) as [Hin|Hnin].
  - rewrite Hks in Hin. apply elem_of_map_keys in Hin as [y Hy]. rewrite Hom in Hy. rewrite Hy.
    destruct Hwf as (_ & Hm & _). destruct (proj1 (Hm f)) as [H0 H1]; [eauto|].
    rewrite ofun_cell. replace (0 <=? f) with true by lia. rewrite H1, Hy. reflexivity.
  - destruct (mget (om o) f) as [y|] eqn:Ey; [|reflexivity].
    exfalso. apply Hnin. rewrite Hks. apply elem_of_map_keys. rewrite Hom. eauto.
Qed.

(** * The cost of Decode and Next on any bytes *)
From Verif Require Import GoBase Spec VarintFacts OffsetsFacts RecFacts DecodeFacts SetFacts Runtime GenApi Fuel Heap HeapFacts Api GetFacts ApiInv ApiFacts SpecCost.
From Verif Require Import Access AccessFacts AccessApi SpecGo SpecSpend SpendFacts SpendGet SpendScan.
From Coq Require Import ZifyBool.

Lemma cwp_fieldDataSize_any G typ b bs : bytes_at G b bs ->
  cwp G (c_fieldDataSize typ b) (fun k r G' => G' = G /\ r = fieldDataSize typ bs /\ (k <= length bs)%nat).
Proof.
  intros Hb. pose proof (ulen_all bs). unfold c_fieldDataSize, fieldDataSize. destruct (typ =? WireVarint).
  - apply cwp_bind. eapply cwp_mono; [apply cwp_uvarint, Hb|]. cbv beta. intros k r G' (-> & -> & Hk). destruct (uvarint bs) as [x n].
    apply cwp_ret. split_and!; [reflexivity|reflexivity|lia].
  - destruct (typ =? WireFixed32); [apply cwp_ret; split_and!; [reflexivity|reflexivity|lia]|].
    destruct (typ =? WireFixed64); [apply cwp_ret; split_and!; [reflexivity|reflexivity|lia]|].
    destruct (typ =? WireBytes); [|apply cwp_stop; split_and!; [reflexivity|reflexivity|lia]].
    apply cwp_bind. eapply cwp_mono; [apply cwp_uvarint, Hb|]. cbv beta. intros k r G' (-> & -> & Hk). destruct (uvarint bs) as [x n].
    destruct (n =? 0); apply cwp_ret; (split_and!; [reflexivity|reflexivity|lia]).
Qed.

(** [s[i:]] of a slice that holds [bs]. *)
Lemma from_any G s bs i : bytes_at G s bs ->
  match h_from s i with
  | Ok d => exists b, slice_from bs i = Ok b /\ bytes_at G d b /\ (length b <= length bs)%nat
  | Panic => slice_from bs i = Panic
  | _ => False
  end.
Proof.
  intros Hb. pose proof (bytes_len _ _ _ Hb) as Hl. destruct (decide (0 <= i <= zlen bs)) as [Hi|Hi].
  - destruct (bytes_from G s bs i Hb Hi) as (d & -> & Hd). exists (drop (Z.to_nat i) bs).
    unfold slice_from. replace ((0 <=? i) && (i <=? zlen bs)) with true by lia. split; [reflexivity|]. split; [exact Hd|]. rewrite drop_length. lia.
  - assert (Hp : h_from s i = Panic).
    { destruct s as [s|]; cbn [h_from hlen] in *.
      - replace ((0 <=? i) && (i <=? slen s)) with false by lia. reflexivity.
      - replace (i =? 0) with false by lia. reflexivity. }
    rewrite Hp. unfold slice_from. replace ((0 <=? i) && (i <=? zlen bs)) with false by lia. reflexivity.
Qed.

Lemma cwp_set_ok G n o f x : 
  cwp G (c_offsets_set n o f x) (fun k r G' => (k <= 7)%nat /\ kept (of_struct o) G G' /\ r = if in_array n f then Ok tt else Panic).
Proof.
  assert (H1 : cwp G (c_offsets_set n o f x) (fun k r G' => r = if in_array n f then Ok tt else Panic)).
  { unfold c_offsets_set. destruct (in_array n f); [|destruct (_ <=? _); apply cwp_stop; reflexivity].
    destruct (_ <=? _).
    - apply cwp_bind. unfold load_num. apply cwp_load. intros w _. apply cwp_ret. apply cwp_bind.
      assert (Hst : forall G', cwp G' (store (Off o (Z.to_nat f)) (Num (u16 x))) (fun _ r _ => r = Ok tt)) by (intros G'; apply cwp_store; reflexivity).
      destruct (_ =? _); [|apply cwp_ret, Hst].
      apply cwp_bind. unfold load_ref. apply cwp_load. intros w2 _. apply cwp_ret. destruct (as_ref w2) as [l|]; [|apply cwp_ret, Hst].
      apply cwp_bind. unfold load_map. apply cwp_load. intros w3 _. apply cwp_ret. apply cwp_store. intros _. apply Hst.
    - apply cwp_bind, cwp_store. intros _. set (G1 := <[_ := _]> G). apply cwp_bind. unfold load_ref. apply cwp_load. intros w Hw. apply cwp_ret.
      assert (Hend : forall G' l, G' !! Ref o = Some (Ptr (Some l)) -> cwp G' (bind (Load (Ref o) (fun w => ret (as_ref w))) (fun r =>
         match r with None => Stop Panic | Some l => let! m := load_map (Table l) in store (Table l) (Tbl (<[f := x]> m)) end)) (fun _ r _ => r = Ok tt)).
      { intros G' l Hl. apply cwp_bind, cwp_load. intros w' Hw'. rewrite Hl in Hw'. injection Hw' as <-. apply cwp_ret. cbn [as_ref].
        apply cwp_bind. unfold load_map. apply cwp_load. intros w3 _. apply cwp_ret. apply cwp_store. reflexivity. }
      apply cwp_bind. destruct (as_ref w) as [l|] eqn:Ew.
      + apply cwp_ret. apply (Hend G1 l). destruct w; try discriminate Ew. cbn in Ew. congruence.
      + apply cwp_bind, cwp_new. intros id _. apply cwp_store. intros _. apply (Hend _ id). apply lookup_insert. }
  intros k G' r Hs. destruct (cwp_tame _ _ _ _ G (tame_offsets_set n o f x) _ _ _ Hs) as (Hk & HK & _). split_and!; [exact Hk|exact HK|exact (H1 _ _ _ Hs)].
Qed.
Lemma cwp_get_ok G n o f :
  cwp G (c_offsets_get n o f) (fun k r G' => (k <= 3)%nat /\ kept (of_struct o) G G' /\ if in_array n f then exists x, r = Ok x else r = Panic).
Proof.
  intros k G' r Hs. destruct (cwp_tame _ _ _ _ G (tame_offsets_get n o f) _ _ _ Hs) as (Hk & HK & _).
  split_and!; [exact Hk|intros l w _; apply HK; intros []|]. revert k G' r Hs Hk HK.
  assert (H : cwp G (c_offsets_get n o f) (fun _ r _ => if in_array n f then exists x, r = Ok x else r = Panic)); [|intros k G' r Hs _ _; exact (H _ _ _ Hs)].
  unfold c_offsets_get. destruct (in_array n f); [|apply cwp_stop; reflexivity].
  apply cwp_bind. unfold load_num. apply cwp_load. intros w _. apply cwp_ret. destruct (negb _); [apply cwp_ret; eauto|].
  apply cwp_bind. unfold load_ref. apply cwp_load. intros w2 _. apply cwp_ret. destruct (as_ref w2); [|apply cwp_ret; eauto].
  apply cwp_bind. unfold load_map. apply cwp_load. intros w3 _. apply cwp_ret. apply cwp_ret. eauto.
Qed.
Lemma cwp_upd_ok G n o reps f x :
  cwp G (if is_repeated reps f then let! (_, ok) := c_offsets_get n o f in if (ok : bool) then ret tt else c_offsets_set n o f x else c_offsets_set n o f x)
    (fun k r G' => (k <= 10)%nat /\ kept (of_struct o) G G' /\ r = if in_array n f then Ok tt else Panic).
Proof.
  destruct (is_repeated reps f).
  - apply cwp_bind. eapply cwp_mono; [apply cwp_get_ok|]. cbv beta. intros k r G' (Hk & HK & Hr). pose proof (cwp_set_ok G' n o f x) as Hs. destruct (in_array n f).
    + destruct Hr as [[y ok] ->]. destruct ok; [apply cwp_ret; split_and!; [lia|exact HK|reflexivity]|].
      eapply cwp_mono; [exact Hs|]. cbv beta. intros k2 r2 G2 (Hk2 & HK2 & ->). split_and!; [lia|eapply kept_trans; eassumption|reflexivity].
    + rewrite Hr. split_and!; [lia|exact HK|reflexivity].
  - eapply cwp_mono; [apply cwp_set_ok|]. cbv beta. intros k r G' (Hk & HK & ->). split_and!; [lia|exact HK|reflexivity].
Qed.

(** What a loop has spent when it has come this far, or to its end. *)
Definition within (nxt : Z -> option Z) (c fuel : nat) (idx : Z) {A} (k : nat) (r : res A) : Prop :=
  (forall f0, Fuel.iter nxt f0 idx = None -> (k <= f0 * c)%nat) /\ (r <> OutOfFuel -> Fuel.iter nxt fuel idx = None).
Lemma within_end nxt c fuel idx {A} k (r : res A) : (k <= c)%nat -> nxt idx = None -> within nxt c (S fuel) idx k r.
Proof.
  intros Hk Hn. split; [|intros _; cbn [Fuel.iter]; rewrite Hn; reflexivity]. intros [|f0] H; [discriminate H|]. cbn. lia.
Qed.
Lemma within_next nxt c fuel idx y {A} k k2 (r : res A) : (k <= c)%nat -> nxt idx = Some y -> within nxt c fuel y k2 r -> within nxt c (S fuel) idx (k + k2) r.
Proof.
  intros Hk Hn [H1 H2]. split; [|intros Hr; cbn [Fuel.iter]; rewrite Hn; auto].
  intros [|f0] H; [discriminate H|]. cbn [Fuel.iter] in H. rewrite Hn in H. specialize (H1 f0 H). cbn. lia.
Qed.

Lemma cwp_hostile_loop bs n o s reps : forall fuel idx G, bytes_at G s bs ->
  cwp G (c_decode_loop fuel n o s reps idx) (fun k r G' => within (decode_next bs (Z.of_nat n)) (2 * length bs + 10) fuel idx k r).
Proof.
  induction fuel as [|fuel IH]; intros idx G Hb; cbn [c_decode_loop].
  { apply cwp_stop. split; [intros f0 _; lia|intros H; destruct (H eq_refl)]. }
  assert (Hn : forall y, decode_next bs (Z.of_nat n) idx = y -> decode_next bs (Z.of_nat n) idx = y) by auto. unfold decode_next at 1 in Hn.
  rewrite (bytes_len _ _ _ Hb). destruct (idx =? zlen bs); [apply cwp_ret, within_end; [lia|auto]|].
  destruct (zlen bs <? idx); [apply cwp_ret, within_end; [lia|auto]|].
  apply cwp_lift. pose proof (from_any G s bs idx Hb) as Hf. destruct (h_from s idx) as [d| | |];
    [|rewrite Hf in Hn; apply within_end; [lia|auto]|destruct Hf|destruct Hf].
  destruct Hf as (b & Hsf & Hd & Hbl). rewrite Hsf in Hn. clear Hsf.
  apply cwp_bind. eapply cwp_mono; [apply cwp_uvarint, Hd|]. cbv beta. intros k1 r1 G1 (-> & -> & Hk1). pose proof (ulen_all b).
  destruct (uvarint b) as [tag size]. destruct (size =? 0); [apply cwp_ret, within_end; [lia|auto]|]. cbv zeta in Hn |- *.
  destruct (zlen bs <=? i64 (idx + size)); [apply cwp_ret, within_end; [lia|auto]|].
  remember (i64 (idx + size)) as i2 eqn:E2. clear E2. remember (i64 (Z.shiftr tag 3)) as f eqn:Ef. clear Ef.
  apply cwp_bind. eapply cwp_mono; [apply (cwp_upd_ok G n o reps f (u64 i2))|]. cbv beta. intros k2 r2 G2 (Hk2 & HK & ->). unfold in_array.
  destruct ((0 <=? f) && (f <? Z.of_nat n)); [|apply within_end; [lia|auto]].
  assert (Hb2 : bytes_at G2 s bs) by (eapply bytes_kept; [exact HK|apply of_struct_bytes|exact Hb]).
  apply cwp_lift. pose proof (from_any G2 s bs i2 Hb2) as Hf. destruct (h_from s i2) as [d2| | |];
    [|rewrite Hf in Hn; apply within_end; [lia|auto]|destruct Hf|destruct Hf].
  destruct Hf as (b2 & Hsf & Hd2 & Hbl2). rewrite Hsf in Hn. clear Hsf.
  apply cwp_bind. eapply cwp_mono; [apply cwp_fieldDataSize_any, Hd2|]. cbv beta. intros k3 r3 G3 (-> & -> & Hk3).
  destruct (fieldDataSize (Z.land tag 7) b2) as [sz| | |]; [|apply within_end; [lia|auto]..].
  destruct (sz =? 0); [apply cwp_ret, within_end; [lia|auto]|].
  eapply cwp_mono; [apply (IH (i64 (i2 + sz)) G2 Hb2)|]. cbv beta. intros k4 r4 G4 Hw.
  replace (k1 + (k2 + (k3 + k4)))%nat with ((k1 + k2 + k3) + k4)%nat by lia. eapply within_next; [lia|auto|exact Hw].
Qed.
Lemma within_bound nxt c len fuel idx {A} k (r : res A) :
  (forall x y, nxt x = Some y -> 0 <= x < Z.of_nat len) -> within nxt c fuel idx k r -> r <> OutOfFuel -> (k <= S len * c)%nat.
Proof. intros Hr [H1 H2] Hf. apply H1. eapply iter_bound; [exact Hr|]. exact (H2 Hf). Qed.

Lemma cwp_decode_any more n o s reps bs G : bytes_at G s bs ->
  cwp G (c_decode more n o reps s) (fun k r _ => r <> OutOfFuel -> (k <= n + 4 + S (length bs) * (2 * length bs + 10))%nat).
Proof.
  intros Hb. unfold c_decode. apply cwp_bind, cwp_store. intros _.
  eapply cwp_tame_bind; [apply tame_clear|..].
  { intros k G' Hk _. split_and!; intros _; lia. }
  cbv beta. intros k G' u Hk HK _.
  assert (Hb2 : bytes_at G' s bs).
  { eapply bytes_kept; [exact HK|apply of_struct_bytes|]. eapply (bytes_kept (fun l => l = Buf o)); [apply kept_insert; reflexivity| |exact Hb]. discriminate. }
  eapply cwp_mono; [apply (cwp_hostile_loop bs n o s reps _ 0 G' Hb2)|]. cbv beta. intros k2 r2 G2 Hw Hr.
  pose proof (within_bound _ _ _ _ _ _ _ (decode_next_range bs (Z.of_nat n)) Hw Hr). lia.
Qed.

(** ** Next *)

Lemma cwp_hostile_find bs s f : forall fuel idx G, bytes_at G s bs ->
  cwp G (c_find_loop fuel s f idx) (fun k r G' => G' = G /\ within (find_next bs f) (2 * length bs) fuel idx k r).
Proof.
  induction fuel as [|fuel IH]; intros idx G Hb; cbn [c_find_loop].
  { apply cwp_stop. split; [reflexivity|]. split; [intros f0 _; lia|intros H; destruct (H eq_refl)]. }
  assert (Hn : forall y, find_next bs f idx = y -> find_next bs f idx = y) by auto. unfold find_next at 1 in Hn.
  rewrite (bytes_len _ _ _ Hb). destruct (idx <? zlen bs); [|apply cwp_ret; split; [reflexivity|]; apply within_end; [lia|auto]].
  apply cwp_lift. pose proof (from_any G s bs idx Hb) as Hf. destruct (h_from s idx) as [d| | |];
    [|rewrite Hf in Hn; split; [reflexivity|]; apply within_end; [lia|auto]|destruct Hf|destruct Hf].
  destruct Hf as (b & Hsf & Hd & Hbl). rewrite Hsf in Hn. clear Hsf.
  apply cwp_bind. eapply cwp_mono; [apply cwp_uvarint, Hd|]. cbv beta. intros k1 r1 G1 (-> & -> & Hk1). pose proof (ulen_all b).
  destruct (uvarint b) as [tag size]. cbv zeta in Hn |- *. remember (i64 (idx + size)) as i2 eqn:E2. clear E2.
  destruct (i64 (Z.shiftr tag 3) =? f).
  { apply cwp_lift. destruct (h_from s i2); [apply cwp_ret|..]; (split; [reflexivity|]; apply within_end; [lia|auto]). }
  apply cwp_lift. pose proof (from_any G s bs i2 Hb) as Hf. destruct (h_from s i2) as [d2| | |];
    [|rewrite Hf in Hn; split; [reflexivity|]; apply within_end; [lia|auto]|destruct Hf|destruct Hf].
  destruct Hf as (b2 & Hsf & Hd2 & Hbl2). rewrite Hsf in Hn. clear Hsf.
  apply cwp_bind. eapply cwp_mono; [apply cwp_fieldDataSize_any, Hd2|]. cbv beta. intros k3 r3 G3 (-> & -> & Hk3).
  destruct (fieldDataSize (Z.land tag 7) b2) as [sz| | |]; [|split; [reflexivity|]; apply within_end; [lia|auto]..].
  eapply cwp_mono; [apply (IH (i64 (i2 + sz)) G Hb)|]. cbv beta. intros k4 r4 G4 [-> Hw]. split; [reflexivity|].
  rewrite Nat.add_assoc. eapply within_next; [lia|auto|exact Hw].
Qed.
Lemma cwp_find_any more it f bs G : bytes_at G it bs ->
  cwp G (c_find more it f) (fun k r G' => G' = G /\ (r <> OutOfFuel -> (k <= length bs + S (length bs) * (2 * length bs))%nat)).
Proof.
  intros Hb. unfold c_find. destruct it as [s|]; [|apply cwp_ret; split; [reflexivity|intros _; lia]].
  apply cwp_bind. eapply cwp_mono; [apply cwp_uvarint, Hb|]. cbv beta. intros k1 r1 G1 (-> & -> & Hk1). pose proof (ulen_all bs).
  destruct (uvarint bs) as [ml ls]. cbv zeta. apply cwp_lift. destruct (h_range _ _ _) as [msg| | |]; [|split; [reflexivity|intros _; lia]..].
  apply cwp_bind. eapply cwp_mono; [apply (cwp_hostile_find bs (Some s) f _ _ G Hb)|]. cbv beta. intros k2 r2 G2 [-> Hw].
  pose proof (within_bound _ _ (length bs) _ _ _ r2 (find_next_range bs f) Hw) as HB.
  destruct r2 as [[i|]| | |]; [|apply cwp_ret; split; [reflexivity|intros _; specialize (HB ltac:(discriminate)); lia]|..|split; [reflexivity|intros H0; destruct (H0 eq_refl)]];
    try (split; [reflexivity|intros _; specialize (HB ltac:(discriminate)); lia]).
  apply cwp_lift. destruct (h_from _ i); [apply cwp_ret|..]; (split; [reflexivity|intros _; specialize (HB ltac:(discriminate)); lia]).
Qed.

(** ** Getters *)
Lemma cwp_get_any n o f G : cwp G (c_offsets_get n o f) (fun k _ G' => (k <= 3)%nat /\ G' = G).
Proof.
  unfold c_offsets_get. destruct (in_array n f); [|apply cwp_stop; split; [lia|reflexivity]].
  apply cwp_bind. unfold load_num. apply cwp_load. intros w _. apply cwp_ret. destruct (negb _); [apply cwp_ret; split; [lia|reflexivity]|].
  apply cwp_bind. unfold load_ref. apply cwp_load. intros w2 _. apply cwp_ret. destruct (as_ref w2); [|apply cwp_ret; split; [lia|reflexivity]].
  apply cwp_bind. unfold load_map. apply cwp_load. intros w3 _. apply cwp_ret. apply cwp_ret. split; [lia|reflexivity].
Qed.
Lemma cwp_getter_any T n o f s bs G : G !! Buf o = Some (Hdr s) -> bytes_at G s bs ->
  cwp G (c_get T n o f) (fun k _ G' => G' = G /\ (k <= 14 + length bs)%nat).
Proof.
  intros Hb Hs. set (P := fun (A : Type) (k : nat) (_ : res A) (G' : heap) => G' = G /\ (k <= 14 + length bs)%nat).
  assert (Hwith : forall A (dflt : A) k, (forall x, cwp G (k x) (fun k2 _ G' => G' = G /\ (k2 <= 11 + length bs)%nat)) -> cwp G (c_with_offset n o f dflt k) (P A)).
  { intros A dflt k Hk. unfold c_with_offset, P. apply cwp_bind. eapply cwp_mono; [apply cwp_get_any|]. cbv beta. intros k1 r1 G1 [Hk1 ->].
    destruct r1 as [[x ok]| | |]; [|split; [reflexivity|lia]..]. destruct ok; [|apply cwp_ret; split; [reflexivity|lia]].
    eapply cwp_mono; [apply Hk|]. cbv beta. intros k2 r2 G2 [-> H2]. split; [reflexivity|lia]. }
  assert (Hload : forall A (k : option slice -> prog A),
    cwp G (k s) (fun k2 r G' => G' = G /\ (k2 <= 10 + length bs)%nat) -> cwp G (bind (load_slice (Buf o)) k) (fun k2 _ G' => G' = G /\ (k2 <= 11 + length bs)%nat)).
  { intros A k HQ. apply cwp_bind, cwp_load. intros w0 Hw0. rewrite Hb in Hw0. injection Hw0 as <-. apply cwp_ret. cbn [as_slice].
    eapply cwp_mono; [exact HQ|]. cbv beta. intros k2 r2 G2 [-> H2]. split; [reflexivity|lia]. }
  assert (HV : forall dflt k, cwp G (c_varint_at n o f dflt k) (P hval)).
  { intros dflt k. unfold c_varint_at. apply Hwith. intros x. apply Hload, cwp_lift. pose proof (from_any G s bs x Hs) as Hf.
    destruct (h_from s x) as [d| | |]; [|split; [reflexivity|lia]..]. destruct Hf as (b & _ & Hd & Hl). pose proof (ulen_all b).
    apply cwp_bind. eapply cwp_mono; [apply cwp_uvarint, Hd|]. cbv beta. intros k2 r2 G2 (-> & -> & Hk2). destruct (uvarint _). apply cwp_ret. split; [reflexivity|lia]. }
  assert (HZ : forall k, cwp G (c_zigzag_at n o f k) (P hval)).
  { intros k. unfold c_zigzag_at. apply Hwith. intros x. apply Hload, cwp_lift. pose proof (from_any G s bs x Hs) as Hf.
    destruct (h_from s x) as [d| | |]; [|split; [reflexivity|lia]..]. destruct Hf as (b & _ & Hd & Hl). pose proof (ulen_all b).
    apply cwp_bind. eapply cwp_mono; [apply cwp_varint, Hd|]. cbv beta. intros k2 r2 G2 (-> & -> & Hk2). destruct (varint _). apply cwp_ret. split; [reflexivity|lia]. }
  assert (HF : forall w k, 0 <= w <= 8 -> cwp G (c_fixed_at n o f w k) (P hval)).
  { intros w k Hw. unfold c_fixed_at. apply Hwith. intros x. apply Hload. destruct (decide (0 <= x)) as [Hx|Hx].
    - eapply cwp_mono; [apply (cwp_fixed G s x w k); lia|]. cbv beta. intros k2 r2 G2 [-> Hk2]. split; [reflexivity|]. lia.
    - apply cwp_lift. assert (E : h_range s x (u64 (x + w)) = Panic).
      { unfold h_range. destruct s; [replace (0 <=? x) with false by lia|replace (x =? 0) with false by lia]; reflexivity. }
      rewrite E. split; [reflexivity|lia]. }
  assert (HS : cwp G (c_slice_at n o f) (P _)).
  { unfold c_slice_at. apply Hwith. intros x. apply Hload, cwp_lift. pose proof (from_any G s bs x Hs) as Hf.
    destruct (h_from s x) as [d| | |]; [|split; [reflexivity|lia]..]. destruct Hf as (b & _ & Hd & Hl). pose proof (ulen_all b).
    apply cwp_bind. eapply cwp_mono; [apply cwp_uvarint, Hd|]. cbv beta. intros k2 r2 G2 (-> & -> & Hk2). destruct (uvarint _). apply cwp_lift.
    destruct (h_range _ _ _); [apply cwp_ret|..]; (split; [reflexivity|lia]). }
  destruct T; cbn [c_get]; try apply HV; try apply HZ; try (apply HF; lia); (apply cwp_bind; eapply cwp_mono; [exact HS|]; cbv beta; intros k2 r2 G2 [-> Hk2];
    destruct r2; [apply cwp_ret|..]; (split; [reflexivity|lia])).
Qed.

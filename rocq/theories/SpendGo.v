(** * The counted programs of Decode, Next and the getters, for any version of Uvarint

    AccessApi.v fixes [binary.Uvarint] to Go 1.12; here its program is the parameter
    [cu].  [c_uvarint] gives back AccessApi.v (lemmas at the end); [c_uvarint_117] is
    Uvarint as of Go 1.17, and for it the cost is linear, whatever the bytes. *)
From Verif Require Import GoBase Spec VarintFacts OffsetsFacts RecFacts DecodeFacts SetFacts Runtime RuntimeGo GenApi Fuel Heap HeapFacts Api GetFacts ApiInv ApiFacts SpecCost.
From Verif Require Import Access AccessFacts AccessApi SpecGo SpecSpend SpendFacts SpendGet SpendScan SpendHostile.
From Coq Require Import ZifyBool.

(** binary.Uvarint of Go 1.17 and later: at the eleventh byte (which the range loop
    has read by then) it gives up.
<<
	for i, b := range buf {
		if i == MaxVarintLen64 { return 0, -(i + 1) }
		if b < 0x80 {
			if i == MaxVarintLen64-1 && b > 1 { return 0, -(i + 1) }
			return x | uint64(b)<<s, i + 1
		}
		x |= uint64(b&0x7f) << s
		s += 7
	}
	return 0, 0
>> *)
Fixpoint c_uvarint_loop_117 (n : nat) (a : nat) (pos i x s : Z) : prog (Z * Z) :=
  match n with
  | O => ret (0, 0)
  | S n =>
    let! b := load_num (Byte a pos) in
    if i =? 10 then ret (0, - (i + 1))
    else if b <? 128 then
      if (i =? 9) && (1 <? b) then ret (0, - (i + 1))
      else ret (Z.lor x (u64 (Z.shiftl b s)), i + 1)
    else c_uvarint_loop_117 n a (pos + 1) (i + 1) (Z.lor x (u64 (Z.shiftl (Z.land b 127) s))) (s + 7)
  end.
Definition c_uvarint_117 (s : option slice) : prog (Z * Z) :=
  match s with None => ret (0, 0) | Some s => c_uvarint_loop_117 (Z.to_nat (slen s)) (sarr s) (soff s) 0 0 0 end.

(** zeropb.go:17-64 *)
Definition c_varint_at_u (cu : option slice -> prog (Z * Z)) (n o : nat) (f : Z) (dflt : pval) (k : Z -> pval) : prog hval :=
  c_with_offset n o f (HVal dflt) (fun offset =>
    let! buf := load_slice (Buf o) in
    let! b := Stop (h_from buf offset) in
    let! (x, _) := cu b in ret (HVal (k x))).
(** zeropb.go:67-84; binary.Varint as in Varint.v *)
Definition c_varint_u (cu : option slice -> prog (Z * Z)) (s : option slice) : prog (Z * Z) :=
  let! (ux, n) := cu s in
  let x := i64 (Z.shiftr ux 1) in
  ret (if negb (Z.land ux 1 =? 0) then Z.lnot x else x, n).
Definition c_zigzag_at_u (cu : option slice -> prog (Z * Z)) (n o : nat) (f : Z) (k : Z -> pval) : prog hval :=
  c_with_offset n o f (HVal (VNum 0)) (fun offset =>
    let! buf := load_slice (Buf o) in
    let! b := Stop (h_from buf offset) in
    let! (x, _) := c_varint_u cu b in ret (HVal (k x))).
(** zeropb.go:149-169 *)
Definition c_slice_at_u (cu : option slice -> prog (Z * Z)) (n o : nat) (f : Z) : prog (option (option slice)) :=
  c_with_offset n o f None (fun offset =>
    let! buf := load_slice (Buf o) in
    let! b := Stop (h_from buf offset) in
    let! (len, lenSize) := cu b in
    let offset := u64 (offset + u64 lenSize) in
    let! d := Stop (h_range buf offset (u64 (offset + len))) in
    ret (Some d)).
(** zeropb.go:17-169: the getters. *)
Definition c_get_u (cu : option slice -> prog (Z * Z)) (T : ptype) (n o : nat) (f : Z) : prog hval :=
  match T with
  | PBool => c_varint_at_u cu n o f (VBool false) (fun x => VBool (0 <? x))
  | PInt32 => c_varint_at_u cu n o f (VNum 0) (fun x => VNum (i32 x))
  | PInt64 => c_varint_at_u cu n o f (VNum 0) (fun x => VNum (i64 x))
  | PUint32 => c_varint_at_u cu n o f (VNum 0) (fun x => VNum (u32 x))
  | PUint64 => c_varint_at_u cu n o f (VNum 0) (fun x => VNum x)
  | PSint32 => c_zigzag_at_u cu n o f (fun x => VNum (i32 x))
  | PSint64 => c_zigzag_at_u cu n o f (fun x => VNum x)
  | PString => let! s := c_slice_at_u cu n o f in ret (HStr (default None s))
  | PBytes => let! s := c_slice_at_u cu n o f in ret (HBy (default None s))
  | _ => c_get T n o f  (* the fixed-width getters do not call Uvarint *)
  end.

(** zeropb.go:493-511 *)
Definition c_fieldDataSize_u (cu : option slice -> prog (Z * Z)) (typ : Z) (b : option slice) : prog Z :=
  if typ =? WireVarint then let! (_, size) := cu b in ret size
  else if typ =? WireFixed32 then ret 4
  else if typ =? WireFixed64 then ret 8
  else if typ =? WireBytes then
    let! (len, lenSize) := cu b in
    if lenSize =? 0 then ret 0 else ret (i64 (lenSize + i64 len))
  else Stop Panic.

(** zeropb.go:423-466 *)
Definition c_decode_loop_u (cu : option slice -> prog (Z * Z)) :=
  fix c_decode_loop_u (fuel : nat) (n o : nat) (buf : option slice) (reps : list Z) (idx : Z) {struct fuel} : prog (option error) :=
  match fuel with
  | O => Stop OutOfFuel
  | S fuel =>
    if idx =? hlen buf then ret None
    else if hlen buf <? idx then ret (Some ErrUnexpectedEOF)
    else
      let! b := Stop (h_from buf idx) in
      let! (tag, size) := cu b in
      if size =? 0 then ret (Some ErrUnexpectedEOF)
      else
        let idx := i64 (idx + size) in
        if hlen buf <=? idx then ret (Some ErrUnexpectedEOF)
        else
          let fieldID := i64 (Z.shiftr tag 3) in
          let typ := Z.land tag 7 in
          let! _ :=
            (if is_repeated reps fieldID then
               let! (_, ok) := c_offsets_get n o fieldID in
               if (ok : bool) then ret tt else c_offsets_set n o fieldID (u64 idx)
             else c_offsets_set n o fieldID (u64 idx)) in
          let! b := Stop (h_from buf idx) in
          let! s := c_fieldDataSize_u cu typ b in
          if s =? 0 then ret (Some ErrUnexpectedEOF)
          else c_decode_loop_u fuel n o buf reps (i64 (idx + s))
  end.
(** test.zeropb.go:39-42, zeropb.go:421-422 *)
Definition c_decode_u (cu : option slice -> prog (Z * Z)) (more n o : nat) (reps : list Z) (s : option slice) : prog (option error) :=
  let! _ := store (Buf o) (Hdr s) in
  let! _ := c_clear n o in
  c_decode_loop_u cu (loops more s) n o s reps 0.

(** zeropb.go:480-489 *)
Definition c_find_loop_u (cu : option slice -> prog (Z * Z)) :=
  fix c_find_loop_u (fuel : nat) (buf : option slice) (field idx : Z) {struct fuel} : prog (option Z) :=
  match fuel with
  | O => Stop OutOfFuel
  | S fuel =>
    if idx <? hlen buf then
      let! b := Stop (h_from buf idx) in
      let! (tag, size) := cu b in
      let idx := i64 (idx + size) in
      let f := i64 (Z.shiftr tag 3) in
      let typ := Z.land tag 7 in
      if f =? field then let! _ := Stop (h_from buf idx) in ret (Some idx)
      else
        let! b := Stop (h_from buf idx) in
        let! s := c_fieldDataSize_u cu typ b in
        c_find_loop_u fuel buf field (i64 (idx + s))
    else ret None
  end.
(** zeropb.go:472-491 *)
Definition c_find_u (cu : option slice -> prog (Z * Z)) (more : nat) (it : option slice) (field : Z) : prog (option slice * option slice) :=
  match it with
  | None => ret (None, None)
  | Some _ =>
    let! (msgLen, lenSize) := cu it in
    let idx := i64 (lenSize + i64 msgLen) in
    let! msg := Stop (h_range it lenSize idx) in
    let! pos := c_find_loop_u cu (loops more it) it field idx in
    match pos with
    | None => ret (None, msg)
    | Some i => let! rest := Stop (h_from it i) in ret (rest, msg)
    end
  end.

(** ** With the Uvarint of Go 1.12 this is AccessApi.v *)
Lemma c_decode_u_12 : c_decode_u c_uvarint = c_decode.
Proof. reflexivity. Qed.
Lemma c_find_u_12 : c_find_u c_uvarint = c_find.
Proof. reflexivity. Qed.
Lemma c_get_u_12 T n o f : c_get_u c_uvarint T n o f = c_get T n o f.
Proof. destruct T; reflexivity. Qed.

(** ** Uvarint of Go 1.17 reads at most eleven bytes *)
Lemma cwp_uvarint_loop_117 G a bs : forall pos i x s, 0 <= i <= 10 ->
  (forall j z, bs !! j = Some z -> G !! Byte a (pos + Z.of_nat j) = Some (Num z)) ->
  cwp G (c_uvarint_loop_117 (length bs) a pos i x s)
    (fun k r G' => G' = G /\ r = Ok (uvarint_loop_117 bs i x s) /\ (k <= ulen bs)%nat /\ Z.of_nat k <= 11 - i).
Proof.
  induction bs as [|b bs IH]; intros pos i x s Hi Hb; cbn [length c_uvarint_loop_117].
  - apply cwp_ret. split_and!; [reflexivity|reflexivity|lia|lia].
  - apply cwp_bind, cwp_load. intros w Hw. pose proof (Hb 0%nat b eq_refl) as H0. rewrite Z.add_0_r in H0. rewrite H0 in Hw. injection Hw as <-.
    apply cwp_ret. cbn [as_num uvarint_loop_117 ulen]. assert (H1 : (1 <= (if (b <? 128)%Z then 1 else S (ulen bs)))%nat) by (destruct (b <? 128); lia).
    destruct (Z.eqb_spec i 10) as [->|H10]; [apply cwp_ret; split_and!; [reflexivity|reflexivity|lia|lia]|]. destruct (b <? 128).
    + destruct ((i =? 9) && (1 <? b)); apply cwp_ret; (split_and!; [reflexivity|reflexivity|lia|lia]).
    + eapply cwp_mono; [apply IH; [lia|]|].
      * intros j z Hj. replace (pos + 1 + Z.of_nat j) with (pos + Z.of_nat (S j)) by lia. apply Hb. exact Hj.
      * cbv beta. intros k r G' (-> & -> & Hk & Hk2). split_and!; [reflexivity|reflexivity|lia|lia].
Qed.
Lemma cwp_uvarint_117 G s bs : bytes_at G s bs ->
  cwp G (c_uvarint_117 s) (fun k r G' => G' = G /\ r = Ok (uvarint_117 bs) /\ (k <= 11)%nat).
Proof.
  intros Hb. destruct s as [s|]; cbn [c_uvarint_117 bytes_at] in *.
  - destruct Hb as [Hl Hb]. replace (Z.to_nat (slen s)) with (length bs) by (unfold zlen in Hl; lia).
    eapply cwp_mono; [apply cwp_uvarint_loop_117; [lia|exact Hb]|]. cbv beta. intros k r G' (-> & -> & _ & Hk). split_and!; [reflexivity|reflexivity|lia].
  - subst bs. apply cwp_ret. split_and!; [reflexivity|reflexivity|lia].
Qed.

Section Bounded.
Context (cu : option slice -> prog (Z * Z)) (uv : list Z -> Z * Z) (B : nat).
Context (Hcu : forall G s bs, bytes_at G s bs -> cwp G (cu s) (fun k r G' => G' = G /\ r = Ok (uv bs) /\ (k <= B)%nat)).

Lemma cwp_fieldDataSize_u G typ b bs : bytes_at G b bs ->
  cwp G (c_fieldDataSize_u cu typ b) (fun k r G' => G' = G /\ r = fieldDataSize_u uv typ bs /\ (k <= B)%nat).
Proof using Hcu.
  intros Hb. unfold c_fieldDataSize_u, fieldDataSize_u. destruct (typ =? WireVarint).
  - apply cwp_bind. eapply cwp_mono; [apply Hcu, Hb|]. cbv beta. intros k r G' (-> & -> & Hk). destruct (uv bs) as [x n].
    apply cwp_ret. split_and!; [reflexivity|reflexivity|lia].
  - destruct (typ =? WireFixed32); [apply cwp_ret; split_and!; [reflexivity|reflexivity|lia]|].
    destruct (typ =? WireFixed64); [apply cwp_ret; split_and!; [reflexivity|reflexivity|lia]|].
    destruct (typ =? WireBytes); [|apply cwp_stop; split_and!; [reflexivity|reflexivity|lia]].
    apply cwp_bind. eapply cwp_mono; [apply Hcu, Hb|]. cbv beta. intros k r G' (-> & -> & Hk). destruct (uv bs) as [x n].
    destruct (n =? 0); apply cwp_ret; (split_and!; [reflexivity|reflexivity|lia]).
Qed.

(** Where one iteration of Decode goes next; as [decode_next] of Fuel.v. *)
Definition decode_next_u (buf : list Z) (n : Z) (idx : Z) : option Z :=
  if idx =? zlen buf then None
  else if zlen buf <? idx then None
  else
    match slice_from buf idx with
    | Ok b =>
      let '(tag, size) := uv b in
      if size =? 0 then None
      else
        let idx := i64 (idx + size) in
        if zlen buf <=? idx then None
        else
          let fieldID := i64 (Z.shiftr tag 3) in
          if (0 <=? fieldID) && (fieldID <? n) then
            match slice_from buf idx with
            | Ok b => match fieldDataSize_u uv (Z.land tag 7) b with
                      | Ok s => if s =? 0 then None else Some (i64 (idx + s))
                      | _ => None
                      end
            | _ => None
            end
          else None
    | _ => None
    end.
Lemma decode_next_u_range buf n x y : decode_next_u buf n x = Some y -> 0 <= x < Z.of_nat (length buf).
Proof using.
  unfold decode_next_u. fold (zlen buf).
  destruct (Z.eqb_spec x (zlen buf)); [discriminate|].
  destruct (Z.ltb_spec (zlen buf) x); [discriminate|].
  unfold slice_from at 1. destruct ((0 <=? x) && (x <=? zlen buf)) eqn:E; [|discriminate]. lia.
Qed.

Lemma cwp_loop_u bs n o s reps : forall fuel idx G, bytes_at G s bs ->
  cwp G (c_decode_loop_u cu fuel n o s reps idx) (fun k r G' => within (decode_next_u bs (Z.of_nat n)) (2 * B + 10) fuel idx k r).
Proof using Hcu.
  induction fuel as [|fuel IH]; intros idx G Hb; cbn [c_decode_loop_u].
  { apply cwp_stop. split; [intros f0 _; lia|intros H; destruct (H eq_refl)]. }
  assert (Hn : forall y, decode_next_u bs (Z.of_nat n) idx = y -> decode_next_u bs (Z.of_nat n) idx = y) by auto. unfold decode_next_u at 1 in Hn.
  rewrite (bytes_len _ _ _ Hb). destruct (idx =? zlen bs); [apply cwp_ret, within_end; [lia|auto]|].
  destruct (zlen bs <? idx); [apply cwp_ret, within_end; [lia|auto]|].
  apply cwp_lift. pose proof (from_any G s bs idx Hb) as Hf. destruct (h_from s idx) as [d| | |];
    [|rewrite Hf in Hn; apply within_end; [lia|auto]|destruct Hf|destruct Hf].
  destruct Hf as (b & Hsf & Hd & Hbl). rewrite Hsf in Hn. clear Hsf.
  apply cwp_bind. eapply cwp_mono; [apply Hcu, Hd|]. cbv beta. intros k1 r1 G1 (-> & -> & Hk1).
  destruct (uv b) as [tag size]. destruct (size =? 0); [apply cwp_ret, within_end; [lia|auto]|]. cbv zeta in Hn |- *.
  destruct (zlen bs <=? i64 (idx + size)); [apply cwp_ret, within_end; [lia|auto]|].
  remember (i64 (idx + size)) as i2 eqn:E2. clear E2. remember (i64 (Z.shiftr tag 3)) as f eqn:Ef. clear Ef.
  apply cwp_bind. eapply cwp_mono; [apply (cwp_upd_ok G n o reps f (u64 i2))|]. cbv beta. intros k2 r2 G2 (Hk2 & HK & ->). unfold in_array.
  destruct ((0 <=? f) && (f <? Z.of_nat n)); [|apply within_end; [lia|auto]].
  assert (Hb2 : bytes_at G2 s bs) by (eapply bytes_kept; [exact HK|apply of_struct_bytes|exact Hb]).
  apply cwp_lift. pose proof (from_any G2 s bs i2 Hb2) as Hf. destruct (h_from s i2) as [d2| | |];
    [|rewrite Hf in Hn; apply within_end; [lia|auto]|destruct Hf|destruct Hf].
  destruct Hf as (b2 & Hsf & Hd2 & Hbl2). rewrite Hsf in Hn. clear Hsf.
  apply cwp_bind. eapply cwp_mono; [apply cwp_fieldDataSize_u, Hd2|]. cbv beta. intros k3 r3 G3 (-> & -> & Hk3).
  destruct (fieldDataSize_u uv (Z.land tag 7) b2) as [sz| | |]; [|apply within_end; [lia|auto]..].
  destruct (sz =? 0); [apply cwp_ret, within_end; [lia|auto]|].
  eapply cwp_mono; [apply (IH (i64 (i2 + sz)) G2 Hb2)|]. cbv beta. intros k4 r4 G4 Hw.
  replace (k1 + (k2 + (k3 + k4)))%nat with ((k1 + k2 + k3) + k4)%nat by lia. eapply within_next; [lia|auto|exact Hw].
Qed.
Lemma cwp_decode_u more n o s reps bs G : bytes_at G s bs ->
  cwp G (c_decode_u cu more n o reps s) (fun k r _ => r <> OutOfFuel -> (k <= n + 4 + S (length bs) * (2 * B + 10))%nat).
Proof using Hcu.
  intros Hb. unfold c_decode_u. apply cwp_bind, cwp_store. intros _.
  eapply cwp_tame_bind; [apply tame_clear|..].
  { intros k G' Hk _. split_and!; intros _; lia. }
  cbv beta. intros k G' u Hk HK _.
  assert (Hb2 : bytes_at G' s bs).
  { eapply bytes_kept; [exact HK|apply of_struct_bytes|]. eapply (bytes_kept (fun l => l = Buf o)); [apply kept_insert; reflexivity| |exact Hb]. discriminate. }
  eapply cwp_mono; [apply (cwp_loop_u bs n o s reps _ 0 G' Hb2)|]. cbv beta. intros k2 r2 G2 Hw Hr.
  pose proof (within_bound _ _ _ _ _ _ _ (decode_next_u_range bs (Z.of_nat n)) Hw Hr). lia.
Qed.

(** ** Next *)
Definition find_next_u (buf : list Z) (field idx : Z) : option Z :=
  if idx <? zlen buf then
    match slice_from buf idx with
    | Ok b =>
      let '(tag, size) := uv b in
      let idx := i64 (idx + size) in
      if i64 (Z.shiftr tag 3) =? field then None
      else match slice_from buf idx with
           | Ok b => match fieldDataSize_u uv (Z.land tag 7) b with
                     | Ok s => Some (i64 (idx + s))
                     | _ => None
                     end
           | _ => None
           end
    | _ => None
    end
  else None.
Lemma find_next_u_range buf f x y : find_next_u buf f x = Some y -> 0 <= x < Z.of_nat (length buf).
Proof using.
  unfold find_next_u. fold (zlen buf). destruct (Z.ltb_spec x (zlen buf)); [|discriminate].
  unfold slice_from at 1. destruct ((0 <=? x) && (x <=? zlen buf)) eqn:E; [|discriminate]. lia.
Qed.

Lemma cwp_find_loop_u bs s f : forall fuel idx G, bytes_at G s bs ->
  cwp G (c_find_loop_u cu fuel s f idx) (fun k r G' => G' = G /\ within (find_next_u bs f) (2 * B) fuel idx k r).
Proof using Hcu.
  induction fuel as [|fuel IH]; intros idx G Hb; cbn [c_find_loop_u].
  { apply cwp_stop. split; [reflexivity|]. split; [intros f0 _; lia|intros H; destruct (H eq_refl)]. }
  assert (Hn : forall y, find_next_u bs f idx = y -> find_next_u bs f idx = y) by auto. unfold find_next_u at 1 in Hn.
  rewrite (bytes_len _ _ _ Hb). destruct (idx <? zlen bs); [|apply cwp_ret; split; [reflexivity|]; apply within_end; [lia|auto]].
  apply cwp_lift. pose proof (from_any G s bs idx Hb) as Hf. destruct (h_from s idx) as [d| | |];
    [|rewrite Hf in Hn; split; [reflexivity|]; apply within_end; [lia|auto]|destruct Hf|destruct Hf].
  destruct Hf as (b & Hsf & Hd & Hbl). rewrite Hsf in Hn. clear Hsf.
  apply cwp_bind. eapply cwp_mono; [apply Hcu, Hd|]. cbv beta. intros k1 r1 G1 (-> & -> & Hk1).
  destruct (uv b) as [tag size]. cbv zeta in Hn |- *. remember (i64 (idx + size)) as i2 eqn:E2. clear E2.
  destruct (i64 (Z.shiftr tag 3) =? f).
  { apply cwp_lift. destruct (h_from s i2); [apply cwp_ret|..]; (split; [reflexivity|]; apply within_end; [lia|auto]). }
  apply cwp_lift. pose proof (from_any G s bs i2 Hb) as Hf. destruct (h_from s i2) as [d2| | |];
    [|rewrite Hf in Hn; split; [reflexivity|]; apply within_end; [lia|auto]|destruct Hf|destruct Hf].
  destruct Hf as (b2 & Hsf & Hd2 & Hbl2). rewrite Hsf in Hn. clear Hsf.
  apply cwp_bind. eapply cwp_mono; [apply cwp_fieldDataSize_u, Hd2|]. cbv beta. intros k3 r3 G3 (-> & -> & Hk3).
  destruct (fieldDataSize_u uv (Z.land tag 7) b2) as [sz| | |]; [|split; [reflexivity|]; apply within_end; [lia|auto]..].
  eapply cwp_mono; [apply (IH (i64 (i2 + sz)) G Hb)|]. cbv beta. intros k4 r4 G4 [-> Hw]. split; [reflexivity|].
  rewrite Nat.add_assoc. eapply within_next; [lia|auto|exact Hw].
Qed.
Lemma cwp_find_u more it f bs G : bytes_at G it bs ->
  cwp G (c_find_u cu more it f) (fun k r G' => G' = G /\ (r <> OutOfFuel -> (k <= B + S (length bs) * (2 * B))%nat)).
Proof using Hcu.
  intros Hb. unfold c_find_u. destruct it as [s|]; [|apply cwp_ret; split; [reflexivity|intros _; lia]].
  apply cwp_bind. eapply cwp_mono; [apply Hcu, Hb|]. cbv beta. intros k1 r1 G1 (-> & -> & Hk1).
  destruct (uv bs) as [ml ls]. cbv zeta. apply cwp_lift. destruct (h_range _ _ _) as [msg| | |]; [|split; [reflexivity|intros _; lia]..].
  apply cwp_bind. eapply cwp_mono; [apply (cwp_find_loop_u bs (Some s) f _ _ G Hb)|]. cbv beta. intros k2 r2 G2 [-> Hw].
  pose proof (within_bound _ _ (length bs) _ _ _ r2 (find_next_u_range bs f) Hw) as HB.
  destruct r2 as [[i|]| | |]; [|apply cwp_ret; split; [reflexivity|intros _; specialize (HB ltac:(discriminate)); lia]|..|split; [reflexivity|intros H0; destruct (H0 eq_refl)]];
    try (split; [reflexivity|intros _; specialize (HB ltac:(discriminate)); lia]).
  apply cwp_lift. destruct (h_from _ i); [apply cwp_ret|..]; (split; [reflexivity|intros _; specialize (HB ltac:(discriminate)); lia]).
Qed.

(** ** Getters *)
Lemma cwp_getter_u T n o f s bs G : G !! Buf o = Some (Hdr s) -> bytes_at G s bs -> (8 <= B)%nat ->
  cwp G (c_get_u cu T n o f) (fun k _ G' => G' = G /\ (k <= 4 + B)%nat).
Proof using Hcu.
  intros Hb Hs HB. set (P := fun (A : Type) (k : nat) (_ : res A) (G' : heap) => G' = G /\ (k <= 4 + B)%nat).
  assert (Hwith : forall A (dflt : A) k, (forall x, cwp G (k x) (fun k2 _ G' => G' = G /\ (k2 <= 1 + B)%nat)) -> cwp G (c_with_offset n o f dflt k) (P A)).
  { intros A dflt k Hk. unfold c_with_offset, P. apply cwp_bind. eapply cwp_mono; [apply cwp_get_any|]. cbv beta. intros k1 r1 G1 [Hk1 ->].
    destruct r1 as [[x ok]| | |]; [|split; [reflexivity|lia]..]. destruct ok; [|apply cwp_ret; split; [reflexivity|lia]].
    eapply cwp_mono; [apply Hk|]. cbv beta. intros k2 r2 G2 [-> H2]. split; [reflexivity|lia]. }
  assert (Hload : forall A (k : option slice -> prog A),
    cwp G (k s) (fun k2 r G' => G' = G /\ (k2 <= B)%nat) -> cwp G (bind (load_slice (Buf o)) k) (fun k2 _ G' => G' = G /\ (k2 <= 1 + B)%nat)).
  { intros A k HQ. apply cwp_bind, cwp_load. intros w0 Hw0. rewrite Hb in Hw0. injection Hw0 as <-. apply cwp_ret. cbn [as_slice].
    eapply cwp_mono; [exact HQ|]. cbv beta. intros k2 r2 G2 [-> H2]. split; [reflexivity|lia]. }
  assert (HV : forall dflt k, cwp G (c_varint_at_u cu n o f dflt k) (P hval)).
  { intros dflt k. unfold c_varint_at_u. apply Hwith. intros x. apply Hload, cwp_lift. pose proof (from_any G s bs x Hs) as Hf.
    destruct (h_from s x) as [d| | |]; [|split; [reflexivity|lia]..]. destruct Hf as (b & _ & Hd & Hl).
    apply cwp_bind. eapply cwp_mono; [apply Hcu, Hd|]. cbv beta. intros k2 r2 G2 (-> & -> & Hk2). destruct (uv _). apply cwp_ret. split; [reflexivity|lia]. }
  assert (HZ : forall k, cwp G (c_zigzag_at_u cu n o f k) (P hval)).
  { intros k. unfold c_zigzag_at_u, c_varint_u. apply Hwith. intros x. apply Hload, cwp_lift. pose proof (from_any G s bs x Hs) as Hf.
    destruct (h_from s x) as [d| | |]; [|split; [reflexivity|lia]..]. destruct Hf as (b & _ & Hd & Hl).
    apply cwp_bind, cwp_bind. eapply cwp_mono; [apply Hcu, Hd|]. cbv beta. intros k2 r2 G2 (-> & -> & Hk2). destruct (uv _). apply cwp_ret, cwp_ret. split; [reflexivity|lia]. }
  assert (HF : forall w k, 0 <= w <= 8 -> cwp G (c_fixed_at n o f w k) (P hval)).
  { intros w k Hw. unfold c_fixed_at. apply Hwith. intros x. apply Hload. destruct (decide (0 <= x)) as [Hx|Hx].
    - eapply cwp_mono; [apply (cwp_fixed G s x w k); lia|]. cbv beta. intros k2 r2 G2 [-> Hk2]. split; [reflexivity|]. lia.
    - apply cwp_lift. assert (E : h_range s x (u64 (x + w)) = Panic).
      { unfold h_range. destruct s; [replace (0 <=? x) with false by lia|replace (x =? 0) with false by lia]; reflexivity. }
      rewrite E. split; [reflexivity|lia]. }
  assert (HS : cwp G (c_slice_at_u cu n o f) (P _)).
  { unfold c_slice_at_u. apply Hwith. intros x. apply Hload, cwp_lift. pose proof (from_any G s bs x Hs) as Hf.
    destruct (h_from s x) as [d| | |]; [|split; [reflexivity|lia]..]. destruct Hf as (b & _ & Hd & Hl).
    apply cwp_bind. eapply cwp_mono; [apply Hcu, Hd|]. cbv beta. intros k2 r2 G2 (-> & -> & Hk2). destruct (uv _). apply cwp_lift.
    destruct (h_range _ _ _); [apply cwp_ret|..]; (split; [reflexivity|lia]). }
  destruct T; cbn [c_get_u c_get]; try apply HV; try apply HZ; try (apply HF; lia); (apply cwp_bind; eapply cwp_mono; [exact HS|]; cbv beta; intros k2 r2 G2 [-> Hk2];
    destruct r2; [apply cwp_ret|..]; (split; [reflexivity|lia])).
Qed.
End Bounded.

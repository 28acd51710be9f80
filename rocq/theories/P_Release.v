(** * Property C83: which Go release compiles the program *)
From Verif Require Import RuntimeGo Spec VarintFacts OffsetsFacts RecFacts DecodeFacts DecodeClass SetFacts GetFacts IterFacts Fuel Api ApiFacts ApiInv Core Release ReleaseCalm Demo.
From Coq Require Import ZifyBool.

(** Let [uv] be any Uvarint that reads well-formed varints as documented, and does
    whatever it likes on other bytes.  Every history of legal operations leaves the
    same struct as with the Uvarint of Go 1.12, and the getters, sub-message
    accessors and iterators (where the stored bytes are well-formed messages) answer
    the same. *)
Theorem C83_same_history uv mt sc os :
  reads_varints uv -> schema_ok mt sc ->
  Forall (op_ok (Z.of_nat (alen mt)) sc) os -> ops_size os < 2 ^ 63 ->
  exists m, run_u uv mt sc (msg_zero mt) os = Ok m /\ run mt sc (msg_zero mt) os = Ok m /\
    (forall f T, sc f = Some (KSingle T) -> m_get_u uv T m f = Ok (read_single T (spec_run sc os f))) /\
    (forall f mt' x, sc f = Some (KSingle PBytes) ->
       Forall wellformed (read_repeated (spec_run sc os f)) ->
       m_Message_u uv mt' m f x = m_Message mt' m f x) /\
    (forall f mt' x n, sc f = Some KRepeated ->
       Forall wellformed (read_repeated (spec_run sc os f)) ->
       m_iterate_u uv n mt' m f x = m_iterate n mt' m f x).
Proof.
  intros Huv Hsc Hok Hsz.
  destruct (rep_run mt sc os (msg_zero mt) [] (fun _ => [])) as (m & cs & He & Hm & Hs & Hl); try assumption.
  { apply rep_zero. }
  { intros f. unfold view. destruct (sc f) as [[|]|]; reflexivity. }
  change (zlen (mbuf (msg_zero mt))) with 0 in Hl. fold (spec_run sc os) in Hs.
  assert (Hgets : forall f T, sc f = Some (KSingle T) -> m_get_u uv T m f = Ok (read_single T (spec_run sc os f))).
  { intros f T Hf. rewrite (m_get_u_same uv Huv mt sc m cs) by assumption.
    rewrite (rep_get mt sc m cs) by (try assumption; lia). rewrite Hs, (read_single_view _ _ _ _ Hf). reflexivity. }
  exists m. split; [|split; [exact He|split; [exact Hgets|split]]].
  - rewrite (run_u_same uv Huv mt sc os (msg_zero mt) []); try assumption. apply rep_zero.
  - intros f mt' x Hf Hpl. unfold m_Message_u, m_Message.
    pose proof (Hgets f PBytes Hf) as Hgu. pose proof (m_get_u_same uv Huv mt sc m cs f PBytes Hsc Hm Hf) as Hg.
    rewrite Hgu in Hg. unfold m_get_u in Hgu. unfold m_get in Hg.
    destruct (GetBytes_u uv (mbuf m) (moff m) f) as [bu| | |] eqn:Eu; cbn [rbind] in *; try discriminate Hgu.
    destruct (GetBytes (mbuf m) (moff m) f) as [b0| | |] eqn:Eb; cbn [rbind] in *; try discriminate Hg.
    injection Hgu as Hgu. rewrite <- Hgu in Hg. injection Hg as Hbb. subst bu. rename Hgu into Hg.
    destruct b0 as [b|]; [|reflexivity].
    assert (Hb : exists rs, wire rs b /\ zlen b < 2 ^ 63).
    2:{ destruct Hb as (rs & Hb1 & Hb2). rewrite (m_Decode_u_wire uv Huv _ _ rs) by assumption. reflexivity. }
    unfold read_single in Hg. destruct (last (spec_run sc os f)) as [w|] eqn:El; [|discriminate].
    assert (w = WBytes b) as -> by (destruct w; cbn in Hg; congruence).
    pose proof El as El'. apply last_Some in El as [l El]. rewrite El in Hpl. unfold read_repeated in Hpl. rewrite map_app in Hpl.
    apply Forall_app in Hpl as [_ Hpl]. apply Forall_cons in Hpl as [[rs Hpl] _]. exists rs. split; [exact Hpl|].
    rewrite Hs in El'. unfold view in El'. rewrite Hf, last_last_only in El'.
    assert (Hin : exists c, c ∈ cs /\ cw c = WBytes b).
    { clear -El'. apply last_Some in El' as [l El]. revert l El. induction cs as [|c cs IH]; intros l El; cbn [map occ crecord] in El.
      - destruct l; discriminate.
      - destruct (cf c =? f).
        + destruct l as [|w l]; injection El as E1 E2.
          * exists c. split; [left|exact E1].
          * destruct (IH l E2) as (c' & H1 & H2). exists c'. split; [right; exact H1|exact H2].
        + destruct (IH l El) as (c' & H1 & H2). exists c'. split; [right; exact H1|exact H2]. }
    destruct Hin as (c & Hc & Hcw). pose proof (rep_buf _ _ _ _ Hm) as Hbuf. pose proof (rep_min _ _ _ _ Hm) as Hmin.
    apply elem_of_list_split in Hc as (l1 & l2 & ->). apply Forall_app in Hmin as [_ Hmin]. apply Forall_cons in Hmin as [[[_ Hp] _] _].
    rewrite Hcw in Hp. destruct Hp as (lb & Hcp & _). rewrite Hbuf, flat_app in Hl. cbn [flat] in Hl. unfold cbytes in Hl. rewrite Hcp in Hl.
    rewrite !zlen_app in Hl. pose proof (zlen_nonneg (flat l1)). pose proof (zlen_nonneg (ct c)). pose proof (zlen_nonneg lb).
    pose proof (zlen_nonneg (flat l2)). lia.
  - intros f mt' x n Hf Hpl. unfold m_iterate_u, m_iterate. destruct m as [buf o].
    pose proof Hsc as (_ & Hrange & Hrep & _). pose proof Hm as [Hbuf Hmin Hwf Hlen Hidx Hty]. cbn [mbuf moff] in *. subst buf.
    pose proof (cmin_valid _ Hmin) as Hv.
    rewrite (m_Iter_ok (reps mt) o cs f); try assumption.
    2:{ unfold in_range. rewrite Hlen. eapply Hrange, Hf. }
    2:{ apply is_repeated_In, Hrep, Hf. }
    cbn [rbind]. apply iterate_u_same; try assumption.
    + eapply typed_all_bytes; [|exact Hf]. eapply Forall_impl; [exact Hty|]. intros c [_ Hc]. exact Hc.
    + lia.
    + rewrite Hs in Hpl. unfold view in Hpl. rewrite Hf in Hpl. exact Hpl.
Qed.

(** Decode of any well-formed message, into a struct with any contents: the same
    outcome and struct, panics included. *)
Theorem C83_same_decode uv mt m rs bs :
  reads_varints uv -> wire rs bs -> Z.of_nat (length bs) < 2 ^ 63 ->
  m_Decode_u uv mt m bs = m_Decode mt m bs.
Proof. intros Huv Hw Hl. eapply m_Decode_u_wire; eassumption. Qed.

(** The Uvarint of Go 1.17 and later is such a one. *)
Theorem C83_go117_reads : reads_varints uvarint_117.
Proof. exact uvarint_117_reads. Qed.

(** It answers otherwise than that of Go 1.12 exactly on inputs that begin with
    eleven continuation bytes. *)
Theorem C83_go117_differs bs :
  uvarint_117 bs <> uvarint bs <->
  exists run r, bs = run ++ r /\ length run = 11%nat /\ Forall (fun b => 128 <= b) run.
Proof.
  split.
  - intros H. destruct (decide ((11 <= length bs)%nat /\ Forall (fun b => 128 <= b) (take 11 bs))) as [[H1 H2]|Hn].
    + exists (take 11 bs), (drop 11 bs). rewrite take_drop, take_length. split; [reflexivity|]. split; [lia|exact H2].
    + exfalso. apply H. unfold uvarint_117, uvarint. apply loops_agree; [lia|]. intros run r -> Hr.
      destruct (Z.leb_spec (0 + zlen run) 10) as [|Hl]; [assumption|]. exfalso. apply Hn. unfold zlen in Hl.
      rewrite app_length, take_app_le by lia. split; [lia|apply Forall_take, Hr].
  - intros (run & r & -> & Hl & Hr) H. unfold uvarint_117, uvarint in H.
    destruct (loops_differ run r 0 0 0) as [E1 E2]; [lia|exact Hr|unfold zlen; lia|].
    rewrite E1 in H. rewrite <- H in E2. cbn [snd] in E2. lia.
Qed.

(** Any one call by any client, legal or not, on a struct with any contents, where
    neither the struct's buffer nor the decoded input has eleven continuation bytes
    in a row: the same answer and struct, or the same failure. *)
Theorem C83_same_call mt m c :
  calm (mbuf m) -> (forall buf, c = CDecode buf -> calm buf) ->
  exec_u uvarint_117 mt m c = exec mt m c.
Proof.
  apply (exec_calm uvarint_117 calm); [intros; apply calm_take; assumption|intros; apply calm_drop; assumption|].
  apply uvarint_117_calm.
Qed.

(** On other bytes the releases differ, in either direction.  A message that ends in
    the middle of an overlong varint is an error with Go 1.12 and a panic with 1.17. *)
Theorem C83_error_or_panic_refuted :
  exists m12, m_Decode demo_mt (msg_zero demo_mt) (8 :: repeat 128 11) = Ok (Some ErrUnexpectedEOF, m12) /\
    m_Decode_u uvarint_117 demo_mt (msg_zero demo_mt) (8 :: repeat 128 11) = Panic.
Proof. eexists. split; vm_compute; reflexivity. Qed.

(** After ten bytes of legal records it is an error with Go 1.12 and an endless loop
    with 1.17: no number of iterations is enough. *)
Definition lap : list Z := [8; 1; 8; 1; 8; 1; 8; 1; 8; 1; 8] ++ repeat 128 11.





(** One lap around these bytes from the state [o]. *)
Definition endless (o : offsets) : Prop :=
  (forall k, (k <= 5)%nat -> decode_loop_u uvarint_117 k lap (reps demo_mt) 0 o = OutOfFuel) /\
  exists o', (forall k, (k <= 5)%nat -> decode_loop_u uvarint_117 k lap (reps demo_mt) 0 o' = OutOfFuel) /\
  forall fuel, decode_loop_u uvarint_117 (6 + fuel) lap (reps demo_mt) 0 o = decode_loop_u uvarint_117 fuel lap (reps demo_mt) 0 o' /\
    decode_loop_u uvarint_117 (6 + fuel) lap (reps demo_mt) 0 o' = decode_loop_u uvarint_117 fuel lap (reps demo_mt) 0 o'.

Lemma endless_never o : endless o -> forall fuel, decode_loop_u uvarint_117 fuel lap (reps demo_mt) 0 o = OutOfFuel.
Proof.
  intros (H1 & o' & H2 & H3).
  assert (Hall : forall n fuel, (fuel <= n)%nat -> decode_loop_u uvarint_117 fuel lap (reps demo_mt) 0 o' = OutOfFuel).
  { induction n as [|n IH]; intros fuel Hf; [apply H2; lia|]. destruct (Nat.le_gt_cases fuel 5) as [|H6]; [apply H2; assumption|].
    replace fuel with (6 + (fuel - 6))%nat by lia. rewrite (proj2 (H3 _)). apply IH. lia. }
  intros fuel. destruct (Nat.le_gt_cases fuel 5) as [|H6]; [apply H1; assumption|].
  replace fuel with (6 + (fuel - 6))%nat by lia. rewrite (proj1 (H3 _)). eapply Hall. reflexivity.
Qed.

(** The offsets after one lap: field 1 at the last of its positions. *)
Definition lap_off : offsets :=
  match offsets_set (offsets_clear (offsets_zero (alen demo_mt))) 1 11 with Ok o => o | _ => offsets_zero 0 end.

(** One iteration of the loop of Decode: where it goes on. *)
Definition dstep (uv : list Z -> Z * Z) (buf reps : list Z) (idx : Z) (o : offsets) : option (Z * offsets) :=
  if idx =? zlen buf then None
  else if zlen buf <? idx then None
  else
    match slice_from buf idx with
    | Ok b =>
      let '(tag, size) := uv b in
      if size =? 0 then None
      else
        let idx := i64 (idx + size) in
        if zlen buf <=? idx then None
        else
          match dec_upd reps o (i64 (Z.shiftr tag 3)) (u64 idx) with
          | Ok o =>
            match slice_from buf idx with
            | Ok b =>
              match fieldDataSize_u uv (Z.land tag 7) b with
              | Ok s => if s =? 0 then None else Some (i64 (idx + s), o)
              | _ => None
              end
            | _ => None
            end
          | _ => None
          end
    | _ => None
    end.
Lemma dstep_ok uv buf reps idx o idx' o' fuel :
  dstep uv buf reps idx o = Some (idx', o') ->
  decode_loop_u uv (S fuel) buf reps idx o = decode_loop_u uv fuel buf reps idx' o'.
Proof.
  unfold dstep. cbn [decode_loop_u]. destruct (_ =? _); [discriminate|]. destruct (_ <? _); [discriminate|].
  destruct (slice_from buf idx) as [b| | |]; [|discriminate..]. cbn [rbind]. destruct (uv b) as [tag size].
  destruct (size =? 0); [discriminate|]. destruct (_ <=? _); [discriminate|]. unfold dec_upd.
  match goal with |- (match ?x with Ok _ => _ | _ => _ end = _ -> _) => destruct x as [o1| | |]; [|discriminate..] end. cbn [rbind].
  destruct (slice_from buf _) as [b2| | |]; [|discriminate..]. cbn [rbind].
  destruct (fieldDataSize_u uv _ b2) as [s| | |]; [|discriminate..]. cbn [rbind].
  destruct (s =? 0); [discriminate|]. intros H. injection H as <- <-. reflexivity.
Qed.

(** Six iterations: five records, and the one that steps back. *)
Lemma lap_six o o1 o2 o3 o4 o5 o6 fuel :
  dstep uvarint_117 lap (reps demo_mt) 0 o = Some (2, o1) -> dstep uvarint_117 lap (reps demo_mt) 2 o1 = Some (4, o2) ->
  dstep uvarint_117 lap (reps demo_mt) 4 o2 = Some (6, o3) -> dstep uvarint_117 lap (reps demo_mt) 6 o3 = Some (8, o4) ->
  dstep uvarint_117 lap (reps demo_mt) 8 o4 = Some (10, o5) -> dstep uvarint_117 lap (reps demo_mt) 10 o5 = Some (0, o6) ->
  decode_loop_u uvarint_117 (6 + fuel) lap (reps demo_mt) 0 o = decode_loop_u uvarint_117 fuel lap (reps demo_mt) 0 o6.
Proof.
  intros H1 H2 H3 H4 H5 H6. cbn [Nat.add].
  rewrite (dstep_ok _ _ _ _ _ _ _ _ H1), (dstep_ok _ _ _ _ _ _ _ _ H2), (dstep_ok _ _ _ _ _ _ _ _ H3),
    (dstep_ok _ _ _ _ _ _ _ _ H4), (dstep_ok _ _ _ _ _ _ _ _ H5), (dstep_ok _ _ _ _ _ _ _ _ H6). reflexivity.
Qed.
Lemma lap_first fuel :
  decode_loop_u uvarint_117 (6 + fuel) lap (reps demo_mt) 0 (offsets_clear (offsets_zero (alen demo_mt))) =
  decode_loop_u uvarint_117 fuel lap (reps demo_mt) 0 lap_off.
Proof. eapply lap_six; vm_compute; reflexivity. Qed.
Lemma lap_next fuel :
  decode_loop_u uvarint_117 (6 + fuel) lap (reps demo_mt) 0 lap_off = decode_loop_u uvarint_117 fuel lap (reps demo_mt) 0 lap_off.
Proof. eapply lap_six; vm_compute; reflexivity. Qed.

Theorem C83_error_or_endless_refuted :
  (exists m12, m_Decode demo_mt (msg_zero demo_mt) lap = Ok (Some ErrUnexpectedEOF, m12)) /\
  forall fuel, Decode_u uvarint_117 fuel lap (moff (msg_zero demo_mt)) (reps demo_mt) = OutOfFuel.
Proof.
  split; [eexists; vm_compute; reflexivity|]. intros fuel. apply endless_never.
  split; [intros k Hk; do 6 (destruct k as [|k]; [vm_compute; reflexivity|]); lia|].
  exists lap_off. split.
  - intros k Hk; do 6 (destruct k as [|k]; [vm_compute; reflexivity|]); lia.
  - intros k. split; [apply lap_first|apply lap_next].
Qed.

(** And these bytes are a panic with Go 1.12, while 1.17 accepts them: it reads part
    of the payload of the first record as records.  Uvarint of Go 1.17 steps back eleven
    bytes at the overlong tag, that of 1.12 twelve. *)
Definition stepback : list Z := [18; 11; 3; 18; 20; 0; 0; 0; 0; 0; 0; 0; 0] ++ repeat 128 11 ++ [0].
Theorem C83_panic_or_success_refuted :
  m_Decode demo_mt (msg_zero demo_mt) stepback = Panic /\
  exists m17, m_Decode_u uvarint_117 demo_mt (msg_zero demo_mt) stepback = Ok (None, m17) /\
    m_get_u uvarint_117 PBytes m17 2 = Ok (VBytes (Some (drop 5 stepback))).
Proof. split; [vm_compute; reflexivity|]. eexists. split; [vm_compute; reflexivity|]. vm_compute. reflexivity. Qed.

(** A history to which the first theorem applies (Demo.v), with both Uvarints, and
    stored sub-messages that are messages. *)
Example C83_case :
  reads_varints uvarint_117 /\ schema_ok demo_mt demo_sc /\ Forall (op_ok (Z.of_nat (alen demo_mt)) demo_sc) demo_os /\
  ops_size demo_os < 2 ^ 63 /\ demo_sc 5 = Some KRepeated /\
  read_repeated (spec_run demo_sc demo_os 5) = [[8; 1]; [8; 2]] /\ Forall wellformed [[8; 1]; [8; 2]] /\
  run_u uvarint_117 demo_mt demo_sc (msg_zero demo_mt) demo_os = Ok demo_m /\
  exists x1 x2, m_iterate_u uvarint_117 5 demo_mt demo_m 5 (msg_zero demo_mt) = Ok [(None, x1); (None, x2)] /\
    m_get_u uvarint_117 PInt32 x2 1 = Ok (VNum 2).
Proof.
  split; [exact uvarint_117_reads|]. split; [apply demo_schema_ok|]. split; [apply demo_ops_ok|].
  split; [reflexivity|]. split; [reflexivity|]. split; [reflexivity|]. split.
  - assert (H : forall v, 0 <= v < 128 -> wellformed [8; v]).
    { intros v Hv. exists [(1, WVarint v)].
      rewrite <- (app_nil_r [8; v]). constructor; [|constructor]. exists [8], [v].
      split_and!; [reflexivity|split; [cbn; lia|apply small_varint; cbn; lia]|apply small_varint; lia]. }
    repeat constructor; apply H; lia.
  - split; [vm_compute; reflexivity|]. eexists _, _. split; [vm_compute; reflexivity|]. vm_compute. reflexivity.
Qed.

(** Malformed input to which C83_same_call applies, with a failure: a varint of
    eleven bytes, which both versions reject alike, with an endless loop. *)
Example C83_call_case :
  calm (repeat 128 10 ++ [0]) /\ ~ calm (repeat 128 11) /\
  exec_u uvarint_117 demo_mt (msg_zero demo_mt) (CDecode (repeat 128 10 ++ [0])) = Panic.
Proof.
  split_and!.
  - intros l run r E Hr. destruct (Nat.le_gt_cases (length run) 10) as [|Hl]; [assumption|]. exfalso.
    pose proof (f_equal (@List.length Z) E) as EL. rewrite !app_length, repeat_length in EL. cbn [length] in EL.
    assert (l = []) as -> by (destruct l; [reflexivity|cbn [length] in EL; lia]).
    assert (r = []) as -> by (destruct r; [reflexivity|cbn [length] in EL; lia]).
    rewrite app_nil_r in E. cbn [app] in E. rewrite <- E in Hr. cbn [repeat app] in Hr.
    repeat (apply Forall_cons in Hr as [? Hr]). lia.
  - intros H. specialize (H [] (repeat 128 11) [] eq_refl). cbn [repeat length] in H.
    assert (Forall (fun b => 128 <= b) (repeat 128 11)) as Hf by (cbn [repeat]; repeat constructor; lia).
    cbn [repeat] in Hf. specialize (H Hf). lia.
  - vm_compute. reflexivity.
Qed.

Print Assumptions C83_same_history.
Print Assumptions C83_same_decode.
Print Assumptions C83_go117_reads.
Print Assumptions C83_go117_differs.
Print Assumptions C83_same_call.
Print Assumptions C83_error_or_panic_refuted.
Print Assumptions C83_error_or_endless_refuted.
Print Assumptions C83_panic_or_success_refuted.

(** * Inputs without eleven continuation bytes in a row: every Uvarint is the same *)
From Verif Require Import RuntimeGo Spec VarintFacts Api Release.
From Coq Require Import ZifyBool.

(** No eleven bytes in a row have the continuation bit. *)
Definition calm (bs : list Z) : Prop :=
  forall l run r, bs = l ++ run ++ r -> Forall (fun b => 128 <= b) run -> (length run <= 10)%nat.

Lemma calm_drop i bs : calm bs -> calm (drop i bs).
Proof.
  intros H l run r E. apply (H (take i bs ++ l) run r). rewrite <- app_assoc, <- E, take_drop. reflexivity.
Qed.
Lemma calm_take i bs : calm bs -> calm (take i bs).
Proof.
  intros H l run r E. apply (H l run (r ++ drop i bs)).
  rewrite <- (take_drop i bs) at 1. rewrite E, <- !app_assoc. reflexivity.
Qed.

(** The two Uvarints differ exactly on inputs that begin with eleven continuation bytes. *)
Lemma loops_agree buf : forall i x s, 0 <= i ->
  (forall run r, buf = run ++ r -> Forall (fun b => 128 <= b) run -> i + zlen run <= 10) ->
  uvarint_loop_117 buf i x s = uvarint_loop buf i x s.
Proof.
  induction buf as [|b buf IH]; intros i x s Hi H; [reflexivity|]. cbn [uvarint_loop uvarint_loop_117].
  destruct (Z.ltb_spec b 128) as [Hb|Hb].
  - destruct (Z.eqb_spec i 10) as [->|H10].
    + reflexivity.
    + assert (i <= 10) by (specialize (H [] (b :: buf) eq_refl ltac:(constructor)); rewrite zlen_nil in H; lia).
      replace (9 <? i) with false by lia. reflexivity.
  - pose proof (H [b] buf eq_refl ltac:(repeat constructor; exact Hb)) as H1. change (zlen [b]) with 1 in H1.
    replace (i =? 10) with false by lia. apply IH; [lia|]. intros run r -> Hr.
    pose proof (H (b :: run) r eq_refl ltac:(constructor; assumption)) as H2. rewrite zlen_cons in H2. lia.
Qed.

Lemma loop_bad_12 buf : forall i x s, 11 <= i ->
  (uvarint_loop buf i x s).2 = 0 \/ (uvarint_loop buf i x s).2 <= -12.
Proof.
  induction buf as [|b buf IH]; intros i x s Hi; cbn [uvarint_loop]; [left; reflexivity|].
  destruct (b <? 128); [|apply IH; lia]. replace (9 <? i) with true by lia. right. cbn [snd orb]. lia.
Qed.

Lemma loops_differ run r : forall i x s, 0 <= i <= 10 -> Forall (fun b => 128 <= b) run -> i + zlen run = 11 ->
  uvarint_loop_117 (run ++ r) i x s = (0, -11) /\ (uvarint_loop (run ++ r) i x s).2 <> -11.
Proof.
  induction run as [|b run IH]; intros i x s Hi Hr Hl.
  - rewrite zlen_nil in Hl. lia.
  - apply Forall_cons in Hr as [Hb Hr]. rewrite zlen_cons in Hl. cbn [app uvarint_loop uvarint_loop_117].
    replace (b <? 128) with false by lia.
    destruct (Z.eqb_spec i 10) as [->|H10].
    + split; [reflexivity|]. destruct run; [|rewrite zlen_cons in Hl; pose proof (zlen_nonneg run); lia].
      destruct (loop_bad_12 ([] ++ r) (10 + 1) (Z.lor x (u64 (Z.shiftl (Z.land b 127) s))) (s + 7)) as [E|E]; lia.
    + apply IH; [lia|exact Hr|lia].
Qed.

Lemma uvarint_117_calm buf : calm buf -> uvarint_117 buf = uvarint buf.
Proof.
  intros H. unfold uvarint_117, uvarint. apply loops_agree; [lia|]. intros run r -> Hr.
  specialize (H [] run r eq_refl Hr). unfold zlen. lia.
Qed.

Section Calm.
Context (uv : list Z -> Z * Z) (P : list Z -> Prop).
Context (Htake : forall i bs, P bs -> P (take i bs)) (Hdrop : forall i bs, P bs -> P (drop i bs)).
Context (Hag : forall bs, P bs -> uv bs = uvarint bs).

(** A slice of such a buffer is such a buffer. *)
Lemma slice_from_P buf i : P buf -> match slice_from buf i with Ok b => P b | _ => True end.
Proof using Hdrop. unfold slice_from. intros H. destruct (_ && _); [apply Hdrop, H|exact I]. Qed.
Lemma slice_range_P buf i j : P buf -> match slice_range buf i j with Ok b => P b | _ => True end.
Proof using Hdrop Htake.
  unfold slice_range. intros H. repeat match goal with |- context [if ?b then _ else _] => destruct b end; try exact I.
  first [apply Htake, Hdrop, H|apply Hdrop, Htake, H].
Qed.

Lemma fieldDataSize_calm typ b : P b -> fieldDataSize_u uv typ b = fieldDataSize typ b.
Proof using Hag. intros H. unfold fieldDataSize_u, fieldDataSize. rewrite (Hag _ H). reflexivity. Qed.

Lemma decode_loop_calm reps buf : P buf -> forall fuel idx o,
  decode_loop_u uv fuel buf reps idx o = decode_loop fuel buf reps idx o.
Proof using Hag Hdrop.
  intros HP. induction fuel as [|fuel IH]; intros idx o; [reflexivity|]. cbn [decode_loop_u decode_loop].
  destruct (_ =? _); [reflexivity|]. destruct (_ <? _); [reflexivity|].
  pose proof (slice_from_P buf idx HP) as H1. destruct (slice_from buf idx) as [b| | |]; cbn [rbind]; try reflexivity.
  rewrite (Hag _ H1). destruct (uvarint b) as [tag size]. destruct (size =? 0); [reflexivity|].
  destruct (_ <=? _); [reflexivity|].
  match goal with |- rbind ?x _ = rbind ?x _ => destruct x as [o'| | |]; cbn [rbind]; try reflexivity end.
  pose proof (slice_from_P buf (i64 (idx + size)) HP) as H2. destruct (slice_from buf (i64 (idx + size))) as [b2| | |]; cbn [rbind]; try reflexivity.
  rewrite (fieldDataSize_calm _ _ H2). destruct (fieldDataSize _ b2) as [s| | |]; cbn [rbind]; try reflexivity.
  destruct (s =? 0); [reflexivity|]. apply IH.
Qed.

Lemma m_Decode_calm mt m buf : P buf -> m_Decode_u uv mt m buf = m_Decode mt m buf.
Proof using Hag Hdrop. intros H. unfold m_Decode_u, m_Decode, Decode_u, Decode. rewrite decode_loop_calm by exact H. reflexivity. Qed.

Lemma find_loop_calm buf field : P buf -> forall fuel idx, find_loop_u uv fuel buf field idx = find_loop fuel buf field idx.
Proof using Hag Hdrop.
  intros HP. induction fuel as [|fuel IH]; intros idx; [reflexivity|]. cbn [find_loop_u find_loop].
  destruct (_ <? _); [|reflexivity].
  pose proof (slice_from_P buf idx HP) as H1. destruct (slice_from buf idx) as [b| | |]; cbn [rbind]; try reflexivity.
  rewrite (Hag _ H1). destruct (uvarint b) as [tag size]. destruct (_ =? _); [reflexivity|].
  pose proof (slice_from_P buf (i64 (idx + size)) HP) as H2. destruct (slice_from buf (i64 (idx + size))) as [b2| | |]; cbn [rbind]; try reflexivity.
  rewrite (fieldDataSize_calm _ _ H2). destruct (fieldDataSize _ b2) as [s| | |]; cbn [rbind]; try reflexivity. apply IH.
Qed.

Lemma find_loop_P buf field : P buf -> forall fuel idx, match find_loop fuel buf field idx with Ok (Some b) => P b | _ => True end.
Proof using Hdrop.
  intros HP. induction fuel as [|fuel IH]; intros idx; [exact I|]. cbn [find_loop].
  destruct (_ <? _); [|exact I].
  destruct (slice_from buf idx) as [b| | |]; cbn [rbind]; try exact I. destruct (uvarint b) as [tag size].
  pose proof (slice_from_P buf (i64 (idx + size)) HP) as H2. destruct (_ =? _).
  - destruct (slice_from buf (i64 (idx + size))) as [b2| | |]; cbn [rbind]; try exact I. exact H2.
  - destruct (slice_from buf (i64 (idx + size))) as [b2| | |]; cbn [rbind]; try exact I.
    destruct (fieldDataSize _ b2) as [s| | |]; cbn [rbind]; try exact I. apply IH.
Qed.

Definition Po (it : option (list Z)) : Prop := match it with Some b => P b | None => True end.

Lemma FindNextField_calm fuel it field : Po it ->
  FindNextField_u uv fuel it field = FindNextField fuel it field /\
  match FindNextField fuel it field with Ok (rest, m) => Po rest /\ Po m | _ => True end.
Proof using Hag Hdrop Htake.
  destruct it as [buf|]; cbn [Po FindNextField_u FindNextField]; [|intros _; split; [reflexivity|split; exact I]].
  intros HP. rewrite (Hag _ HP). destruct (uvarint buf) as [msgLen lenSize].
  pose proof (slice_range_P buf lenSize (i64 (lenSize + i64 msgLen)) HP) as H1.
  destruct (slice_range _ _ _) as [m| | |]; cbn [rbind]; try (split; [reflexivity|exact I]).
  rewrite find_loop_calm by exact HP. pose proof (find_loop_P buf field HP fuel (i64 (lenSize + i64 msgLen))) as H2.
  destruct (find_loop _ _ _ _) as [[rest|]| | |]; cbn [rbind]; (split; [reflexivity|]); try exact I; (split; [|exact H1]); first [exact H2|exact I].
Qed.

Lemma it_Next_calm mt it f m : Po it ->
  it_Next_u uv mt it f m = it_Next mt it f m /\
  match it_Next mt it f m with Ok (it', _, _, _) => Po it' | _ => True end.
Proof using Hag Hdrop Htake.
  intros HP. unfold it_Next_u, it_Next. destruct (FindNextField_calm (find_fuel it) it f HP) as [-> H].
  destruct (FindNextField _ _ _) as [[rest [b|]]| | |]; cbn [rbind]; try (split; [reflexivity|exact I]).
  - destruct H as [H1 H2]. rewrite m_Decode_calm by exact H2.
    destruct (m_Decode mt m b) as [[err m']| | |]; cbn [rbind]; (split; [reflexivity|]); first [exact H1|exact I].
  - split; [reflexivity|apply H].
Qed.

Lemma iterate_calm mt f : forall n it m, Po it -> iterate_u uv n mt it f m = iterate n mt it f m.
Proof using Hag Hdrop Htake.
  induction n as [|n IH]; intros it m HP; [reflexivity|]. cbn [iterate_u iterate].
  destruct (it_Next_calm mt it f m HP) as [-> H]. destruct (it_Next mt it f m) as [[[[it' ok] err] m']| | |]; cbn [rbind]; try reflexivity.
  destruct ok; [|reflexivity]. fold (iterate_u uv). rewrite (IH it' m' H). reflexivity.
Qed.

Lemma GetBytes_calm buf o f : P buf ->
  GetBytes_u uv buf o f = GetBytes buf o f /\ match GetBytes buf o f with Ok b => Po b | _ => True end.
Proof using Hag Hdrop Htake.
  intros HP. unfold GetBytes_u, GetBytes, with_offset.
  destruct (offsets_get o f) as [[off [|]]| | |]; cbn [rbind]; try (split; [reflexivity|exact I]).
  pose proof (slice_from_P buf off HP) as H1. destruct (slice_from buf off) as [b| | |]; cbn [rbind]; try (split; [reflexivity|exact I]).
  rewrite (Hag _ H1). destruct (uvarint b) as [len lenSize].
  set (i := u64 (off + u64 lenSize)). set (j := u64 (i + len)).
  pose proof (slice_range_P buf i j HP) as H2. destruct (slice_range buf i j) as [d| | |]; cbn [rbind]; (split; [reflexivity|]); first [exact H2|exact I].
Qed.

Lemma m_get_calm T m f : P (mbuf m) -> m_get_u uv T m f = m_get T m f.
Proof using Hag Hdrop.
  intros HP. destruct T; try reflexivity; cbn [m_get_u m_get];
    unfold get_varint_u, get_zigzag_u, GetBool, GetInt32, GetInt64, GetUint32, GetUint64, GetZigZagInt32, GetZigZagInt64,
      GetString_u, GetBytes_u, GetString, GetBytes, with_offset, varint_u, varint;
    destruct (offsets_get (moff m) f) as [[off [|]]| | |]; cbn [rbind]; try reflexivity;
    pose proof (slice_from_P (mbuf m) off HP) as H1; destruct (slice_from (mbuf m) off) as [b| | |]; cbn [rbind]; try reflexivity;
    rewrite (Hag _ H1); reflexivity.
Qed.

Lemma m_set_calm T m f v : P (mbuf m) -> m_set_u uv T m f v = m_set T m f v.
Proof using Hag Hdrop.
  intros HP. apply m_set_u_of. intros valLen val. unfold setSingle_u, setSingle, setSingle_ord.
  destruct (put_uvarint _ _) as [tb| | |]; cbn [rbind]; try reflexivity.
  destruct (offsets_get (moff m) f) as [[off [|]]| | |]; cbn [rbind]; try reflexivity.
  assert (E : old_len_u uv (mbuf m) off (ptype_wire_type T) = old_len (mbuf m) off (ptype_wire_type T)); [|rewrite E; reflexivity].
  unfold old_len_u, old_len. pose proof (slice_from_P (mbuf m) off HP) as H1.
  destruct (slice_from (mbuf m) off) as [b| | |]; cbn [rbind]; try reflexivity. rewrite (Hag _ H1). reflexivity.
Qed.

Lemma exec_calm mt m c : P (mbuf m) -> (forall buf, c = CDecode buf -> P buf) -> exec_u uv mt m c = exec mt m c.
Proof using Hag Hdrop Htake.
  intros HP Hc. destruct c as [T f|T f v|f x|mt' f x|n mt' f x| |buf|buf]; cbn [exec_u exec]; try reflexivity.
  - rewrite m_get_calm by exact HP. reflexivity.
  - rewrite m_set_calm by exact HP. reflexivity.
  - unfold m_Message_u, m_Message. destruct (GetBytes_calm (mbuf m) (moff m) f HP) as [-> H].
    destruct (GetBytes _ _ _) as [[b|]| | |]; cbn [rbind]; try reflexivity. rewrite m_Decode_calm by exact H. reflexivity.
  - unfold m_iterate_u, m_iterate, m_Iter, GetRepeatedNonPacked, with_offset.
    destruct (offsets_get (moff m) f) as [[off [|]]| | |]; cbn [rbind]; try reflexivity; [|rewrite iterate_calm by exact I; reflexivity].
    pose proof (slice_from_P (mbuf m) off HP) as H1. destruct (slice_from (mbuf m) off) as [b| | |]; cbn [rbind]; try reflexivity.
    rewrite iterate_calm by exact H1. reflexivity.
  - rewrite m_Decode_calm by (apply Hc; reflexivity). reflexivity.
Qed.
End Calm.

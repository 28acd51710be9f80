(** * Properties C01-C06, C10-C13, C19, C21, C23, C24, C26, C35:
    messages as byte strings (value layer) *)
From Verif Require Import Api Demo.
From Verif Require Import VarintFacts OffsetsFacts RecFacts DecodeFacts SetFacts GetFacts IterFacts ApiFacts ApiInv.
From Verif Require Import Core Core2 Core3 Core4 Core5 Core6.

(** C01.  In any message a history of operations can produce, a setter of a
    declared field succeeds and the getter of the field then returns the value
    ([stored]: a nil slice reads back as an empty one). *)
Theorem C01_read_your_write mt sc os m f T v :
  schema_ok mt sc -> history mt sc os m ->
  sc f = Some (KSingle T) -> in_type T v ->
  ops_size os + 20 + pval_size v < 2 ^ 63 ->
  exists m', m_set T m f v = Ok m' /\ m_get T m' f = Ok (stored v).
Proof. exact (read_your_write mt sc os m f T v). Qed.

Example C01_case :
  schema_ok demo_mt demo_sc /\ history demo_mt demo_sc demo_os demo_m /\
  demo_sc 1 = Some (KSingle PInt32) /\ in_type PInt32 (VNum (-5)) /\ ops_size demo_os + 20 + 0 < 2 ^ 63.
Proof. split; [exact demo_schema_ok|]. split; [exact demo_history|]. split; [reflexivity|]. split; [cbn; lia|reflexivity]. Qed.

(** C02.  A setter leaves every accessor of every other field unchanged. *)
Theorem C02_set_frame mt sc os m f T v :
  schema_ok mt sc -> history mt sc os m ->
  sc f = Some (KSingle T) -> in_type T v ->
  ops_size os + 20 + pval_size v < 2 ^ 63 ->
  exists m', m_set T m f v = Ok m' /\
    forall g, g <> f ->
      (forall T', sc g = Some (KSingle T') -> m_get T' m' g = m_get T' m g) /\
      (sc g = Some (KSingle PBytes) -> forall mt' x, m_Message mt' m' g x = m_Message mt' m g x) /\
      (sc g = Some KRepeated -> forall n mt' x, m_iterate n mt' m' g x = m_iterate n mt' m g x).
Proof.
  intros H1 H2 H3 H4 H5. destruct (set_frame mt sc os m f T v H1 H2 H3 H4 H5) as (m' & Hs & Hg).
  exists m'. split; [exact Hs|]. intros g Hgf. specialize (Hg g Hgf). unfold same_at in Hg. split_and!.
  - intros T' E. rewrite E in Hg. symmetry. apply Hg.
  - intros E. rewrite E in Hg. destruct Hg as [_ Hg]. intros. symmetry. apply Hg. reflexivity.
  - intros E. rewrite E in Hg. intros. symmetry. apply Hg.
Qed.

Example C02_case :
  let m' := match m_set PString demo_m 2 (VString [1; 2; 3; 4]) with Ok m => m | _ => msg_zero demo_mt end in
  m_get PInt32 m' 1 = Ok (VNum (-1)) /\ m_get PInt32 demo_m 1 = Ok (VNum (-1)) /\
  m_iterate 3 demo_mt m' 5 (msg_zero demo_mt) = m_iterate 3 demo_mt demo_m 5 (msg_zero demo_mt) /\
  m_Encode m' <> m_Encode demo_m.
Proof. vm_compute. split_and!; try reflexivity. discriminate. Qed.

(** C03.  A history of legal operations never fails, and every accessor answers
    as the plain record [spec_run sc os] says. *)
Theorem C03_history_refines mt sc os :
  schema_ok mt sc -> Forall (op_ok (Z.of_nat (alen mt)) sc) os -> ops_size os < 2 ^ 63 ->
  exists m, run mt sc (msg_zero mt) os = Ok m /\
    (forall f T, sc f = Some (KSingle T) -> m_get T m f = Ok (read_single T (spec_run sc os f))) /\
    (forall f, sc f = Some (KSingle PBytes) -> forall mt' x,
       m_Message mt' m f x =
       match last (spec_run sc os f) with
       | None => Ok (false, None, x)
       | Some w => let* (err, y) := m_Decode mt' x (bytes_of w) in Ok (true, err, y)
       end) /\
    (forall f, sc f = Some KRepeated -> forall mt' x n,
       (length (spec_run sc os f) < n)%nat ->
       m_iterate n mt' m f x = decode_each mt' x (read_repeated (spec_run sc os f))).
Proof.
  intros H1 H2 H3. destruct (history_refines mt sc os H1 H2 H3) as (m & Hr & Hg & Hi).
  exists m. split_and!; try assumption.
  intros f Hf mt' x. rewrite m_Message_get, (Hg f PBytes Hf). cbn [rbind]. unfold read_single.
  destruct (last (spec_run sc os f)) as [w|] eqn:El; [|reflexivity].
  destruct (history_conforms mt sc os m f PBytes w H1 (conj H2 Hr) H3 Hf El) as [Hwt _].
  destruct w; cbn in Hwt; try discriminate. reflexivity.
Qed.

Example C03_case :
  schema_ok demo_mt demo_sc /\ Forall (op_ok (Z.of_nat (alen demo_mt)) demo_sc) demo_os /\ ops_size demo_os < 2 ^ 63 /\
  read_single PInt32 (spec_run demo_sc demo_os 1) = VNum (-1) /\
  read_single PString (spec_run demo_sc demo_os 2) = VString [104; 105] /\
  read_repeated (spec_run demo_sc demo_os 5) = [[8; 1]; [8; 2]].
Proof. split; [exact demo_schema_ok|]. split; [exact demo_ops_ok|]. split_and!; reflexivity. Qed.

(** C04.  The encoding is a well-formed message, and its per-field contents are
    the record the history describes. *)
Theorem C04_encode_wellformed mt sc os m :
  schema_ok mt sc -> history mt sc os m -> ops_size os < 2 ^ 63 ->
  exists rs, wire_min rs (m_Encode m) /\
    Forall (fun r => r.1 < Z.of_nat (alen mt) /\ well_typed sc r) rs /\
    (forall f T, sc f = Some (KSingle T) -> last_only (occ f rs) = spec_run sc os f) /\
    (forall f, (forall T, sc f <> Some (KSingle T)) -> occ f rs = spec_run sc os f).
Proof. exact (encode_wellformed mt sc os m). Qed.

Example C04_case : spec_run demo_sc demo_os 4 = [WBytes [97; 98]] /\ spec_run demo_sc demo_os 6 = [WVarint 1].
Proof. split; reflexivity. Qed.

(** C05.  Decoding the encoding into any struct of the type gives a message with
    the same bytes and the same answers. *)
Theorem C05_decode_encode mt sc os m m0 :
  schema_ok mt sc -> history mt sc os m -> ops_size os < 2 ^ 63 -> of_type mt m0 ->
  exists m', m_Decode mt m0 (m_Encode m) = Ok (None, m') /\
    m_Encode m' = m_Encode m /\ same_answers sc m m'.
Proof. exact (decode_encode mt sc os m m0). Qed.

Example C05_case :
  match m_Decode demo_mt demo_m (m_Encode demo_m) with
  | Ok (None, m') => m_get PInt32 m' 1 = Ok (VNum (-1)) /\ m_get PBytes m' 3 = Ok (VBytes (Some []))
  | _ => False
  end.
Proof. vm_compute. split; reflexivity. Qed.

(** C06.  Every well-formed message within the field range is accepted, into any
    struct, and read as the specification says. *)
Theorem C06_decode_accepts mt m0 rs bs :
  of_type mt m0 -> wire rs bs -> Forall (fun r => r.1 < Z.of_nat (alen mt)) rs -> Z.of_nat (length bs) < 2 ^ 63 ->
  exists m, m_Decode mt m0 bs = Ok (None, m) /\ m_Encode m = bs /\
    (forall f T, 0 <= f < Z.of_nat (alen mt) -> ~ In f (reps mt) ->
       (forall w, last (occ f rs) = Some w -> conforms T w) ->
       m_get T m f = Ok (read_single T (occ f rs))) /\
    (forall f, 0 <= f < Z.of_nat (alen mt) -> In f (reps mt) ->
       Forall (fun w => wire_type w = 2) (occ f rs) ->
       forall mt' x n, (length (occ f rs) < n)%nat ->
         m_iterate n mt' m f x = decode_each mt' x (read_repeated (occ f rs))).
Proof. exact (decode_accepts mt m0 rs bs). Qed.

(** Non-minimal varints and duplicates. *)
Example C06_case :
  of_type demo_mt demo_m /\ wire demo_rs demo_bs2 /\ Forall (fun r => r.1 < Z.of_nat (alen demo_mt)) demo_rs /\
  occ 1 demo_rs = [WVarint 5; WVarint 7] /\ read_single PInt32 (occ 1 demo_rs) = VNum 7.
Proof. split; [reflexivity|]. split; [exact demo_wire2|]. split; [exact demo_range|]. split; reflexivity. Qed.

(** C10.  Whatever precedes it, and whatever other fields follow it, the last
    record of a non-repeated field is the one read. *)
Theorem C10_last_wins mt m0 rs1 f w rs2 bs T :
  of_type mt m0 -> wire (rs1 ++ (f, w) :: rs2) bs ->
  Forall (fun r => r.1 < Z.of_nat (alen mt)) (rs1 ++ (f, w) :: rs2) -> Z.of_nat (length bs) < 2 ^ 63 ->
  (forall w', ~ In (f, w') rs2) -> ~ In f (reps mt) -> conforms T w ->
  exists m, m_Decode mt m0 bs = Ok (None, m) /\ m_get T m f = Ok (value_of T w).
Proof. exact (last_wins mt m0 rs1 f w rs2 bs T). Qed.

Example C10_case :
  wire ([(1, WVarint 5); (4, WBytes [97; 98]); (5, WBytes [8; 1])] ++ (1, WVarint 7) :: [(3, WBytes [])]) demo_bs /\
  (forall w', ~ In (1, w') [(3, WBytes [])]) /\ conforms PInt32 (WVarint 7).
Proof. split; [exact demo_wire|]. split; [intros w' [[=]|[]]|split; [reflexivity|exact I]]. Qed.

(** C11.  [k] calls of Next on the iterator of a decoded message show, in order,
    each element once (nil error, the element's bytes), and then the end for
    ever. *)
Theorem C11_iterator_exact mt m0 rs bs f mt' x k :
  of_type mt m0 -> wire rs bs -> Forall (fun r => r.1 < Z.of_nat (alen mt)) rs -> Z.of_nat (length bs) < 2 ^ 63 ->
  In f (reps mt) -> 0 <= f < Z.of_nat (alen mt) -> Forall (fun w => wire_type w = 2) (occ f rs) ->
  of_type mt' x -> Forall (accepted mt') (read_repeated (occ f rs)) ->
  exists m it l, m_Decode mt m0 bs = Ok (None, m) /\ m_Iter m f = Ok it /\
    next_calls k mt' it f x = Ok l /\
    map seen l = map (fun p => Some (None, p)) (take k (read_repeated (occ f rs))) ++
                 replicate (k - length (occ f rs)) None.
Proof. exact (iterator_exact mt m0 rs bs f mt' x k). Qed.

Example C11_case :
  wire demo_rs demo_bs /\ In 5 (reps demo_mt) /\ Forall (fun w => wire_type w = 2) (occ 5 demo_rs) /\
  Forall (accepted (mkMtype 3 [])) (read_repeated (occ 5 demo_rs)).
Proof.
  split; [exact demo_wire|]. split; [left; reflexivity|]. split; [repeat constructor|].
  constructor; [|constructor]. exists [(1, WVarint 1)]. split; [|repeat constructor].
  apply (wire_cons (1, WVarint 1) [] [8; 1] []); [|constructor].
  exists [8], [1]. split; [reflexivity|]. split; [split; [cbn; lia|apply small_varint; cbn; lia]|apply small_varint; lia].
Qed.

(** C12.  AppendTo puts the element at the end of the iteration and changes
    nothing else. *)
Theorem C12_append_to mt sc os m f x :
  schema_ok mt sc -> history mt sc os m -> sc f = Some KRepeated -> Forall is_byte (m_Encode x) ->
  ops_size os + 20 + zlen (m_Encode x) < 2 ^ 63 ->
  exists m' ps, m_AppendTo m f x = Ok m' /\
    (forall g, g <> f -> same_at sc m m' g) /\
    (forall mt' y n, (length ps < n)%nat -> m_iterate n mt' m f y = decode_each mt' y ps) /\
    (forall mt' y n, (length ps + 1 < n)%nat -> m_iterate n mt' m' f y = decode_each mt' y (ps ++ [m_Encode x])).
Proof. exact (append_to mt sc os m f x). Qed.

Example C12_case : demo_sc 5 = Some KRepeated /\ Forall is_byte (m_Encode demo_m) /\ m_Encode demo_m <> [].
Proof. split; [reflexivity|]. split; [|discriminate]. vm_compute. repeat constructor; discriminate. Qed.

(** C13.  Unset fields read as defaults; a bytes/sub-message field reads as nil
    exactly when it is absent. *)
Theorem C13_defaults_presence mt sc os m :
  schema_ok mt sc -> history mt sc os m -> ops_size os < 2 ^ 63 ->
  (forall f T, sc f = Some (KSingle T) -> spec_run sc os f = [] -> m_get T m f = Ok (default_of T)) /\
  (forall f, sc f = Some (KSingle PBytes) ->
     (m_get PBytes m f = Ok (VBytes None) <-> spec_run sc os f = []) /\
     (forall mt' x, spec_run sc os f = [] -> m_Message mt' m f x = Ok (false, None, x)) /\
     (forall b, spec_run sc os f = [WBytes b] -> m_get PBytes m f = Ok (VBytes (Some b)))) /\
  (forall f mt' x n, sc f = Some KRepeated -> spec_run sc os f = [] -> m_iterate (S n) mt' m f x = Ok []).
Proof. exact (defaults_presence mt sc os m). Qed.

(** The fresh message and, in the demo, a present but empty sub-message. *)
Example C13_case :
  history demo_mt demo_sc [] (msg_zero demo_mt) /\ spec_run demo_sc [] 3 = [] /\
  spec_run demo_sc demo_os 3 = [WBytes []] /\ m_get PBytes demo_m 3 = Ok (VBytes (Some [])).
Proof. split; [split; [constructor|reflexivity]|]. split_and!; reflexivity. Qed.

(** C19.  Storing a sub-message and reading it back into any struct. *)
Theorem C19_submessage_round_trip mt sc os m f mt' sc' os' x y :
  schema_ok mt sc -> history mt sc os m -> sc f = Some (KSingle PBytes) ->
  schema_ok mt' sc' -> history mt' sc' os' x -> of_type mt' y ->
  ops_size os + 20 + ops_size os' < 2 ^ 63 ->
  exists m' y', m_SetMessage m f x = Ok m' /\ m_Message mt' m' f y = Ok (true, None, y') /\
    m_Encode y' = m_Encode x /\ same_answers sc' x y'.
Proof. exact (submessage_round_trip mt sc os m f mt' sc' os' x y). Qed.

Example C19_case :
  match m_SetMessage demo_m 3 demo_m with
  | Ok m' => match m_Message demo_mt m' 3 demo_m with
             | Ok (true, None, y) => m_get PString y 2 = Ok (VString [104; 105])
             | _ => False
             end
  | _ => False
  end /\ demo_sc 3 = Some (KSingle PBytes).
Proof. vm_compute. split; reflexivity. Qed.

(** C21.  A setter makes the last record of its field exactly the record the
    encoding specification prescribes, with minimal tag and length varints; on a
    fresh message that record is the whole encoding. *)
Theorem C21_wire_encoding mt sc os m f T v :
  schema_ok mt sc -> history mt sc os m -> sc f = Some (KSingle T) -> in_type T v ->
  ops_size os + 20 + pval_size v < 2 ^ 63 ->
  exists m' tb pb rs1 b1 rs2 b2, m_set T m f v = Ok m' /\
    m_Encode m' = b1 ++ (tb ++ pb) ++ b2 /\
    minimal_tag_enc (f, wire_of T v) tb /\ canonical_payload (wire_of T v) pb /\
    wire rs1 b1 /\ wire rs2 b2 /\ occ f rs2 = [] /\ (os = [] -> b1 = [] /\ b2 = []).
Proof.
  intros H1 H2 H3 H4 H5.
  assert (Hps : 0 <= pval_size v) by (destruct v as [| | |[|]]; cbn; lia).
  destruct (set_bytes mt sc os m f T v H1 H2 H3 H4 H5) as (m' & tb & pb' & Hs & Ht & Hp & Hcase).
  assert (Hmt : exists rs, wire rs (m_Encode m)).
  { destruct (encode_wellformed mt sc os m H1 H2) as (rs & Hw & _); [lia|]. eauto using wire_min_wire. }
  assert (Hnil : os = [] -> m_Encode m = [] /\ spec_run sc os f = []).
  { intros ->. destruct H2 as [_ H2]. cbn in H2. injection H2 as <-. split; reflexivity. }
  destruct Hcase as [[_ He]|(w & rs1 & b1 & pb & rs2 & b2 & Hw & _ & Hw1 & Hw2 & Ho & _ & [[_ He]|[_ He]])].
  - destruct Hmt as [rs Hw]. exists m', tb, pb', rs, (m_Encode m), [], []. rewrite app_nil_r.
    split_and!; auto; [constructor|]. intros E. split; [apply Hnil, E|reflexivity].
  - exists m', tb, pb', rs1, b1, rs2, b2. rewrite <- app_assoc. split_and!; auto.
    intros E. apply Hnil in E as [_ E]. congruence.
  - apply wire_concrete in Hw1 as (cs1 & Hv1 & <- & <-). apply wire_concrete in Hw2 as (cs2 & Hv2 & <- & <-).
    exists m', tb, pb', (map crecord (cs1 ++ cs2)), (flat (cs1 ++ cs2)), [], []. rewrite app_nil_r, flat_app, <- app_assoc.
    split_and!; auto; [|constructor|].
    + apply wire_concrete. exists (cs1 ++ cs2). rewrite flat_app. split_and!; auto. apply Forall_app; auto.
    + intros E. apply Hnil in E as [_ E]. congruence.
Qed.

Example C21_case :
  match m_set PInt32 (msg_zero demo_mt) 1 (VNum (-2)) with
  | Ok m => m_Encode m = [8; 254; 255; 255; 255; 255; 255; 255; 255; 255; 1] | _ => False end /\
  match m_set PSint32 (msg_zero demo_mt) 6 (VNum (-2)) with
  | Ok m => m_Encode m = [48; 3] | _ => False end.
Proof. split; reflexivity. Qed.

(** C23.  The length after a setter; and a history that itself decodes no
    duplicates leaves at most one record per non-repeated field. *)
Theorem C23_no_growth mt sc os m f T v :
  schema_ok mt sc -> history mt sc os m -> sc f = Some (KSingle T) -> in_type T v ->
  ops_size os + 20 + pval_size v < 2 ^ 63 ->
  exists m' new, m_set T m f v = Ok m' /\ record_enc_min (f, wire_of T v) new /\
    ((spec_run sc os f = [] /\ length (m_Encode m') = length (m_Encode m) + length new)%nat \/
     exists w old b1 b2, spec_run sc os f = [w] /\ m_Encode m = b1 ++ old ++ b2 /\ record_enc (f, w) old /\
       (length (m_Encode m') = length (m_Encode m) - length old + length new)%nat).
Proof.
  intros H1 H2 H3 H4 H5.
  destruct (set_bytes mt sc os m f T v H1 H2 H3 H4 H5) as (m' & tb & pb' & Hs & Ht & Hp & Hcase).
  exists m', (tb ++ pb'). split_and!; [exact Hs| |].
  { exists tb, pb'. split_and!; auto. apply canonical_payload_enc, Hp. }
  destruct Hcase as [[Hn He]|(w & rs1 & b1 & pb & rs2 & b2 & Hw & Hpw & Hw1 & Hw2 & Ho & Hem & Hc)].
  - left. split; [exact Hn|]. rewrite He, app_length. reflexivity.
  - right. 
    exists w, (tb ++ pb), b1, b2. rewrite <- app_assoc. split_and!; auto.
    + exists tb, pb. split_and!; auto. destruct Ht as [Hf Hmin]. split; [exact Hf|]. cbn [fst snd] in *.
      replace (wire_type w) with (wire_type (wire_of T v)); [apply Hmin|].
      destruct (conforms_wire_of T v H4) as [E _]. rewrite E. symmetry.
      eapply (history_conforms mt sc os m f T w); try eassumption; [destruct v as [| | |[|]]; cbn in *; lia|].
      rewrite Hw. reflexivity.
    + rewrite Hem. destruct Hc as [[_ ->]|[_ ->]]; rewrite !app_length; lia.
Qed.

Theorem C23_one_record mt sc os m :
  schema_ok mt sc -> history mt sc os m -> Forall (op_sparse sc) os -> ops_size os < 2 ^ 63 ->
  exists rs, wire_min rs (m_Encode m) /\
    forall f T, sc f = Some (KSingle T) -> (length (occ f rs) <= 1)%nat.
Proof. exact (one_record mt sc os m). Qed.

Example C23_case : let os := [OSet 1 (VNum 300); OSet 2 (VString [1]); OSet 1 (VNum 3)] in
  Forall (op_ok 8 demo_sc) os /\ Forall (op_sparse demo_sc) os /\
  match run demo_mt demo_sc (msg_zero demo_mt) os with Ok m => m_Encode m = [18; 1; 1; 8; 3] | _ => False end.
Proof.
  cbn zeta. split; [|split; [repeat constructor|reflexivity]].
  repeat (apply Forall_cons; split; [eexists; split; [reflexivity|cbn; try lia; repeat constructor; lia]|]). constructor.
Qed.

(** C24.  If the value bytes of the field's last record have the length of the
    new value's encoding, they are overwritten in place and nothing else
    changes. *)
Theorem C24_in_place mt sc os m f T v rs1 b1 w tb pb rs2 b2 pb' :
  schema_ok mt sc -> history mt sc os m -> sc f = Some (KSingle T) -> in_type T v ->
  ops_size os + 20 + pval_size v < 2 ^ 63 ->
  m_Encode m = b1 ++ tb ++ pb ++ b2 -> wire rs1 b1 -> tag_enc (f, w) tb -> payload_enc w pb ->
  wire rs2 b2 -> occ f rs2 = [] ->
  canonical_payload (wire_of T v) pb' -> length pb' = length pb ->
  exists m', m_set T m f v = Ok m' /\ m_Encode m' = b1 ++ tb ++ pb' ++ b2.
Proof. exact (in_place mt sc os m f T v rs1 b1 w tb pb rs2 b2 pb'). Qed.

Example C24_case :
  match m_set PString demo_m 2 (VString [120; 121]) with
  | Ok m' => m_Encode m' =
      ([8; 5] ++ [34; 2; 97; 98] ++ [42; 2; 8; 1] ++ [26; 0]) ++ [18] ++ [2; 120; 121] ++
      ([42; 2; 8; 2] ++ [48; 1] ++ [8; 255; 255; 255; 255; 255; 255; 255; 255; 255; 1])
  | _ => False end.
Proof. reflexivity. Qed.

(** C26.  Mutations leave the records of undeclared fields byte for byte and in
    order.  (That Decode accepts them, within the field range, is C06; what
    happens out of range is C26_refuted.) *)
Theorem C26_unknown_fields_partial mt sc os m os2 m' ps ps' :
  schema_ok mt sc -> history mt sc os m ->
  Forall (op_ok (Z.of_nat (alen mt)) sc) os2 -> Forall is_mutation os2 ->
  ops_size os + ops_size os2 < 2 ^ 63 -> run mt sc m os2 = Ok m' ->
  wire_parts ps (m_Encode m) -> wire_parts ps' (m_Encode m') -> undeclared sc ps' = undeclared sc ps.
Proof. exact (unknown_fields mt sc os m os2 m' ps ps'). Qed.

Example C26_case : demo_sc 4 = None /\ occ 4 demo_rs = [WBytes [97; 98]] /\
  Forall is_mutation [OSet 2 (VString [104; 105]); OAppend 5 [8; 2]].
Proof. split_and!; try reflexivity. repeat constructor. Qed.

(** C35.  Next and the sub-message accessor return true with exactly the outcome
    of decoding the payload; an error in one element does not stop the
    iteration. *)
Theorem C35_element_errors mt m0 rs bs :
  of_type mt m0 -> wire rs bs -> Forall (fun r => r.1 < Z.of_nat (alen mt)) rs -> Z.of_nat (length bs) < 2 ^ 63 ->
  exists m, m_Decode mt m0 bs = Ok (None, m) /\
    (forall f, In f (reps mt) -> 0 <= f < Z.of_nat (alen mt) -> Forall (fun w => wire_type w = 2) (occ f rs) ->
       exists it, m_Iter m f = Ok it /\
         forall k mt' x, next_calls k mt' it f x = decode_calls k mt' x (read_repeated (occ f rs))) /\
    (forall f p, ~ In f (reps mt) -> 0 <= f < Z.of_nat (alen mt) -> last (occ f rs) = Some (WBytes p) ->
       forall mt' x, m_Message mt' m f x = let* (err, y) := m_Decode mt' x p in Ok (true, err, y)).
Proof. exact (element_errors mt m0 rs bs). Qed.

(** An element that is truncated, between two good ones. *)
Example C35_case :
  match decode_calls 4 (mkMtype 3 []) (msg_zero (mkMtype 3 [])) [[8; 1]; [8]; [8; 2]] with
  | Ok l => map seen l = [Some (None, [8; 1]); Some (Some ErrUnexpectedEOF, [8]); Some (None, [8; 2]); None]
  | _ => False
  end.
Proof. reflexivity. Qed.

Print Assumptions C01_read_your_write.
Print Assumptions C02_set_frame.
Print Assumptions C03_history_refines.
Print Assumptions C04_encode_wellformed.
Print Assumptions C05_decode_encode.
Print Assumptions C06_decode_accepts.
Print Assumptions C10_last_wins.
Print Assumptions C11_iterator_exact.
Print Assumptions C12_append_to.
Print Assumptions C13_defaults_presence.
Print Assumptions C19_submessage_round_trip.
Print Assumptions C21_wire_encoding.
Print Assumptions C23_no_growth.
Print Assumptions C23_one_record.
Print Assumptions C24_in_place.
Print Assumptions C26_unknown_fields_partial.
Print Assumptions C35_element_errors.

(** * Properties C28 (the field that is cut), C56 (enums) *)
From Verif Require Import Api Demo SpecCost Cut P_Value P_Decode.
From Verif Require Import VarintFacts OffsetsFacts RecFacts DecodeFacts Core Core2 ApiInv ApiFacts.
From Verif Require Import Heap HeapApi.
From stdpp Require Import fin_maps gmap.
#[local] Open Scope Z_scope.

(** ** C28: the getter of the very field whose record is cut *)

(** A message that ends inside the value of a record of field [f] (the tag and at
    least one more byte are there).  Decode reports it, and the getter of [f] is
    safe exactly if the size of the record cannot be read: then it returns the zero
    value (a number cut within its varint) or an empty string (cut within the
    length prefix).  If the size can be read (fixed-width numbers; byte strings
    with a complete length prefix), the getter reads beyond the message
    ([PastLen]): it panics, or, if the array of the message is longer than the
    message, returns foreign bytes ([C28_leak_refuted]). *)
Theorem C28_cut_field mt m0 rs b0 f w tb pb k T :
  of_type mt m0 -> wire rs b0 -> Forall (fun r => r.1 < Z.of_nat (alen mt)) rs ->
  tag_enc (f, w) tb -> payload_enc w pb -> f < Z.of_nat (alen mt) ->
  (length tb < k < length (tb ++ pb))%nat -> Z.of_nat (length (b0 ++ tb ++ pb)) < 2 ^ 63 ->
  ~ In f (reps mt) -> wire_type w = ptype_wire_type T ->
  exists m, m_Decode mt m0 (b0 ++ take k (tb ++ pb)) = Ok (Some ErrUnexpectedEOF, m) /\
    (size_known w tb pb k -> m_get T m f = PastLen) /\
    (~ size_known w tb pb k -> m_get T m f =
       Ok (value_of T match w with WBytes _ => WBytes [] | _ => WVarint 0 end)).
Proof. apply cut_field. Qed.

Example C28_cut_case :
  tag_enc (2, WBytes [97; 98; 99]) [18] /\ payload_enc (WBytes [97; 98; 99]) [3; 97; 98; 99] /\
  size_known (WBytes [97; 98; 99]) [18] [3; 97; 98; 99] 3 /\
  match m_Decode demo_mt demo_m (demo_bs2 ++ take 3 ([18] ++ [3; 97; 98; 99])) with
  | Ok (Some ErrUnexpectedEOF, m) => m_get PString m 2 = PastLen
  | _ => False
  end.
Proof.
  assert (Hb : Forall is_byte [97; 98; 99]) by (repeat constructor; unfold is_byte; lia).
  assert (Hv : is_varint (Z.of_nat (length [97; 98; 99])) [3]) by (apply small_varint; cbn; lia).
  split_and!.
  - split; [cbn; lia|apply small_varint; cbn; lia].
  - exists [3]. auto.
  - right. exists [97; 98; 99], [3]. split_and!; auto.
  - vm_compute. reflexivity.
Qed.

(** The string field is cut after one of its five bytes; the message lies in an
    array whose next bytes belong to someone else.  Decode returns
    io.ErrUnexpectedEOF, and the accessor then returns those bytes. *)
Theorem C28_leak_refuted :
  exists σ s σ' h' d,
    swf σ (Some s) /\ sbytes σ (Some s) = [18; 5; 104] /\
    h_decode demo_mt σ (mkH None (replicate 8 0) None) (Some s) = Ok (Some ErrUnexpectedEOF, σ', h') /\
    h_get PString σ' h' 2 = Ok (HStr (Some d)) /\
    soff s + slen s < soff d + slen d /\ sbytes σ' (Some d) = [104; 201; 202; 203; 204].
Proof.
  exists (mkMem {[ 0%nat := [18; 5; 104; 201; 202; 203; 204; 205] ]} ∅), (mkSl 0 0 3 8).
  eexists _, _, _. split.
  { exists [18; 5; 104; 201; 202; 203; 204; 205]. split; [reflexivity|]. unfold zlen. cbn [soff slen scap length]. lia. }
  split; [reflexivity|]. split; [vm_compute; reflexivity|]. split; [vm_compute; reflexivity|].
  split; [cbn; lia|]. vm_compute. reflexivity.
Qed.

(** ** C56: enum fields *)

(** Protobuf encodes an enum number as an int32; the accessors of zeropb use
    uint32.  What any conforming encoder writes for the enum number [e] is read as
    [e] modulo 2^32, so that a client that converts to int32 gets [e]. *)
Theorem C56_enum_read mt m0 f e tb vb :
  of_type mt m0 -> 0 <= f < Z.of_nat (alen mt) -> ~ In f (reps mt) ->
  - 2 ^ 31 <= e < 2 ^ 31 -> tag_enc (f, wire_of PInt32 (VNum e)) tb -> payload_enc (wire_of PInt32 (VNum e)) vb ->
  exists m u, m_Decode mt m0 (tb ++ vb) = Ok (None, m) /\ m_get PUint32 m f = Ok (VNum u) /\
    0 <= u < 2 ^ 32 /\ to_signed 32 u = e /\ (0 <= e -> u = e).
Proof.
  intros H0 Hf Hn He Ht Hp. cbn [wire_of payload_enc] in *.
  destruct (C22_foreign_varint_partial mt m0 f PUint32 _ tb vb H0 Hf Hn eq_refl Ht Hp) as (m & Hd & Hg); [discriminate|].
  exists m, (to_unsigned 32 (to_unsigned 64 e)). split; [exact Hd|]. split; [exact Hg|].
  unfold to_signed, to_unsigned in *.
  change (2 ^ 31) with 2147483648 in *. change (2 ^ (32 - 1)) with 2147483648. change (2 ^ 32) with 4294967296 in *. change (2 ^ 64) with 18446744073709551616 in *.
  split_and!; try (Z.div_mod_to_equations; lia).
  destruct (Z.ltb_spec (((e mod 18446744073709551616) mod 4294967296) mod 4294967296) 2147483648); Z.div_mod_to_equations; lia.
Qed.

Example C56_read_case :
  tag_enc (1, wire_of PInt32 (VNum (-3))) [8] /\
  payload_enc (wire_of PInt32 (VNum (-3))) [253; 255; 255; 255; 255; 255; 255; 255; 255; 1] /\
  match m_Decode demo_mt demo_m [8; 253; 255; 255; 255; 255; 255; 255; 255; 255; 1] with
  | Ok (None, m) => m_get PUint32 m 1 = Ok (VNum (2 ^ 32 - 3)) | _ => False end.
Proof.
  split; [split; [cbn; lia|apply small_varint; cbn; lia]|]. split; [|vm_compute; reflexivity].
  exists [253; 255; 255; 255; 255; 255; 255; 255; 255], 1. split_and!; try reflexivity; try lia; repeat constructor; lia.
Qed.

(** Writing the enum number [e] converted to uint32, after any history: the last
    record of the field is one that a conforming decoder of enums, which keeps the
    low 32 bits, reads as [e]; for non-negative [e] it is exactly the record
    protobuf prescribes.
    Missing: the record for negative numbers is not the one protobuf prescribes,
    see below. *)
Theorem C56_enum_write_partial mt sc os m f e :
  schema_ok mt sc -> history mt sc os m -> sc f = Some (KSingle PUint32) ->
  - 2 ^ 31 <= e < 2 ^ 31 -> ops_size os + 30 < 2 ^ 63 ->
  exists m' rs w, m_set PUint32 m f (VNum (to_unsigned 32 e)) = Ok m' /\ wire rs (m_Encode m') /\
    last (occ f rs) = Some w /\ value_of PInt32 w = VNum e /\ (0 <= e -> w = wire_of PInt32 (VNum e)).
Proof.
  intros H1 H2 H3 He Hs.
  assert (Hty : in_type PUint32 (VNum (to_unsigned 32 e))).
  { cbn. unfold to_unsigned. apply Z.mod_pos_bound. lia. }
  destruct (C21_wire_encoding mt sc os m f PUint32 _ H1 H2 H3 Hty) as (m' & tb & pb & rs1 & b1 & rs2 & b2 & E & Eb & Ht & Hp & Hw1 & Hw2 & Ho & _).
  { cbn [pval_size]. lia. }
  exists m', (rs1 ++ (f, wire_of PUint32 (VNum (to_unsigned 32 e))) :: rs2), (wire_of PUint32 (VNum (to_unsigned 32 e))).
  split; [exact E|]. split_and!.
  - rewrite Eb. clear Eb E Ho. induction Hw1 as [|r rs c1 c2 Hr _ IH]; cbn [app].
    + constructor; [|exact Hw2]. exists tb, pb. split; [reflexivity|]. destruct Ht as [Hge Hv]. split; [split; [exact Hge|apply Hv]|].
      cbn in Hp |- *. apply Hp.
    + rewrite <- app_assoc. constructor; assumption.
  - assert (Hoc : forall l, occ f (l ++ (f, wire_of PUint32 (VNum (to_unsigned 32 e))) :: rs2) = occ f l ++ [wire_of PUint32 (VNum (to_unsigned 32 e))]).
    { intros l. induction l as [|[g w] l IH]; cbn [app occ]; [rewrite Z.eqb_refl, Ho; reflexivity|].
      rewrite IH. destruct (g =? f); reflexivity. }
    rewrite Hoc, last_snoc. reflexivity.
  - cbn [wire_of value_of]. f_equal. unfold to_signed, to_unsigned. change (2 ^ (32 - 1)) with 2147483648. change (2 ^ 31) with 2147483648 in *. change (2 ^ 32) with 4294967296 in *.
    destruct (Z.ltb_spec ((e mod 4294967296) mod 4294967296) 2147483648); Z.div_mod_to_equations; lia.
  - intros Hge. cbn [wire_of]. f_equal. unfold to_unsigned. change (2 ^ 31) with 2147483648 in *. change (2 ^ 32) with 4294967296 in *. change (2 ^ 64) with 18446744073709551616.
    rewrite !Z.mod_small by lia. reflexivity.
Qed.

Definition enum_sc : schema := fun f => if f =? 1 then Some (KSingle PUint32) else None.

Example C56_write_case :
  schema_ok demo_mt enum_sc /\ history demo_mt enum_sc [] (msg_zero demo_mt) /\ enum_sc 1 = Some (KSingle PUint32).
Proof.
  split_and!; [|split; [constructor|reflexivity]|reflexivity].
  unfold enum_sc. split_and!.
  - vm_compute. discriminate.
  - intros f k. destruct (Z.eqb_spec f 1) as [->|]; [intros _; cbn; lia|discriminate].
  - intros f. destruct (f =? 1); discriminate.
  - intros f T. destruct (Z.eqb_spec f 1) as [->|]; [|discriminate]. intros _ [H|[]]. discriminate H.
Qed.

(** For every negative enum number the record differs from the one protobuf
    prescribes (five bytes instead of ten), and a reader that keeps 64 bits, which
    is how an int64 reader of the field sees it, does not get [e]. *)
Theorem C56_negative_enum_refuted :
  (forall e, - 2 ^ 31 <= e < 0 ->
     wire_of PUint32 (VNum (to_unsigned 32 e)) <> wire_of PInt32 (VNum e) /\
     value_of PInt64 (wire_of PUint32 (VNum (to_unsigned 32 e))) <> VNum e /\
     value_of PInt64 (wire_of PInt32 (VNum e)) = VNum e) /\
  exists m', m_set PUint32 (msg_zero demo_mt) 1 (VNum (to_unsigned 32 (-1))) = Ok m' /\
    m_Encode m' = [8; 255; 255; 255; 255; 15].
Proof.
  split.
  - intros e He. cbn [wire_of value_of]. unfold to_unsigned, to_signed. change (2 ^ (64 - 1)) with 9223372036854775808. change (2 ^ 31) with 2147483648 in *. change (2 ^ 32) with 4294967296 in *. change (2 ^ 64) with 18446744073709551616.
    split_and!.
    + intros [= H]. Z.div_mod_to_equations; lia.
    + destruct (Z.ltb_spec ((e mod 4294967296) mod 18446744073709551616) 9223372036854775808); intros [= H1]; Z.div_mod_to_equations; lia.
    + f_equal. destruct (Z.ltb_spec ((e mod 18446744073709551616) mod 18446744073709551616) 9223372036854775808); Z.div_mod_to_equations; lia.
  - eexists. split; [vm_compute; reflexivity|vm_compute; reflexivity].
Qed.

Print Assumptions C28_cut_field.
Print Assumptions C28_leak_refuted.
Print Assumptions C56_enum_read.
Print Assumptions C56_enum_write_partial.
Print Assumptions C56_negative_enum_refuted.

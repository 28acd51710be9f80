(** * A generated package as its clients see it *)
From Verif Require Import Gen GoLang Spec GoCheck GoCheckFacts GenSpec GenLex GenText GenNames GenAst GenFile GenCheck GenPkg GenNec GoSem GenBehave GenClient Api.
From Coq Require Import ZifyBool.

(** Generation is a function of the descriptors. *)
Lemma generated_ast fs gs : Forall good_file fs -> generated fs gs -> gs = map file_ast fs.
Proof.
  intros Hg H. induction H as [|f g fs gs (nm & c & H1 & H2) _ IH]; [done|].
  inversion Hg; subst. destruct (file_gen f) as (c' & E1 & E2); [done|]. rewrite H1 in E1. injection E1 as _ ->.
  cbn [map]. rewrite <- IH by done. f_equal. rewrite H2 in E2. injection E2 as ->. done.
Qed.
Lemma generated_exists fs : Forall good_file fs -> generated fs (map file_ast fs).
Proof.
  induction 1 as [|f fs Hf _ IH]; [constructor|]. cbn [map]. constructor; [|done].
  destruct (file_gen f Hf) as (c & H1 & H2). eauto.
Qed.

(** ** The message type *)
Lemma max_numbers fs : Forall good_field fs -> fold_right Z.max 0 (map getNumber fs) = largestFieldID fs.
Proof.
  intros H. destruct (largest_ok fs H) as (H0 & H1 & H2). set (M := largestFieldID fs) in *. clearbody M.
  assert (forall l, fold_right Z.max 0 l <= M <-> 0 <= M /\ forall x, x ∈ l -> x <= M) as Hle.
  { induction l as [|a l IH]; cbn [fold_right].
    - split; [intros; split; [lia|intros x Hx; apply elem_of_nil in Hx; done]|lia].
    - rewrite Z.max_lub_iff, IH. split.
      + intros (? & ? & Hl). split; [done|]. intros x Hx. apply elem_of_cons in Hx as [->|Hx]; auto.
      + intros (? & Hl). split; [apply Hl, elem_of_list_here|]. split; [done|]. intros x Hx. apply Hl, elem_of_list_further. done. }
  assert (forall l x, x ∈ l -> x <= fold_right Z.max 0 l) as Hge.
  { induction l as [|a l IH]; intros x Hx; [apply elem_of_nil in Hx; done|]. cbn. apply elem_of_cons in Hx as [->|Hx]; [lia|]. specialize (IH x Hx). lia. }
  assert (forall l, 0 <= fold_right Z.max 0 l) as H0' by (induction l; cbn; lia).
  apply Z.le_antisymm.
  - apply Hle. split; [lia|]. intros x Hx. apply elem_of_list_fmap in Hx as (f & -> & Hf). auto.
  - destruct H2 as [->|(f & Hf & E)]; [apply H0'|]. rewrite <- E. apply Hge, elem_of_list_fmap. eauto.
Qed.
Lemma alen_of d : good_message d -> Z.of_nat (alen (mtype_of d)) = array_len d /\ alen (mtype_of d) = Z.to_nat (array_len d).
Proof.
  intros [_ H]. unfold mtype_of, array_len. cbn [alen]. rewrite (max_numbers _ H). destruct (largest_ok _ H) as [H0 _]. lia.
Qed.
Lemma mtype_is d : good_message d -> is_mtype d (mtype_of d).
Proof.
  intros H. destruct (alen_of d H) as [E _]. destruct H as [_ H]. destruct (largest_ok _ H) as (H0 & H1 & H2).
  unfold is_mtype. rewrite E. unfold array_len. split_and!.
  - intros f Hf. specialize (H1 f Hf). lia.
  - destruct H2 as [H2|(f & Hf & H2)]; [left; unfold array_len in E; lia|]. right. exists f. split; [done|lia].
  - intros n. cbn [reps mtype_of]. rewrite in_map_iff. split.
    + intros (f & <- & Hf). apply filter_In in Hf as [Hf Hl]. exists f. split; [apply elem_of_list_In; done|]. unfold repeated. split; [lia|done].
    + intros (f & Hf & Hr & <-). exists f. split; [done|]. apply filter_In. split; [apply elem_of_list_In; done|]. unfold repeated in Hr. lia.
Qed.

(** ** Methods of an accepted package *)
Lemma codec_of t : is_Some (declared_type t) -> exists ty fn T g,
  fieldToGoTypeSimple t = Ok (ty, fn) /\ declared_type t = Some (T, g) /\ go_type t = g /\ (fn, T) ∈ codecs.
Proof.
  intros H.
  assert (Ht : t ∈ [1;2;3;4;5;6;7;8;9;12;13;14;15;16;17;18]).
  { destruct t as [|p|p]; [destruct H; done| |destruct H; done].
    do 5 (destruct p as [p|p|]; try (destruct H as [? H]; discriminate H); try (apply (bool_decide_unpack _); vm_compute; exact I)). }
  clear H. unfold codecs.
  repeat (apply elem_of_cons in Ht as [->|Ht];
    [do 4 eexists; split; [reflexivity|]; split; [reflexivity|]; split; [reflexivity|];
     repeat (first [apply elem_of_list_here|apply elem_of_list_further])|]).
  apply elem_of_nil in Ht. done.
Qed.

Section accepted.
Context (fs : list file) (gs : list gofile) (Hgood : Forall good_file fs) (Hgen : generated fs gs) (Hok : package_ok gs = true).
Notation D := (decls gs).

Lemma acc_ok : package_ok (map file_ast fs) = true.
Proof using Hgood Hgen Hok. rewrite <- (generated_ast fs gs Hgood Hgen). done. Qed.
Lemma acc_decls : D = pkg_decls fs.
Proof using Hgood Hgen. rewrite (generated_ast fs gs Hgood Hgen). done. Qed.
Lemma acc_nd : NoDup (pkg_names D).
Proof using Hgood Hgen Hok. rewrite acc_decls. apply (ok_nd _ Hgood acc_ok). Qed.
Lemma acc_mk : NoDup (method_keys D).
Proof using Hgood Hgen Hok. rewrite acc_decls. apply (ok_mk _ Hgood acc_ok). Qed.

Section message.
Context (d : descriptor) (Hd : d ∈ messages fs).
Lemma acc_good : good_message d.
Proof using Hgood Hd. apply (pkg_good fs); done. Qed.
Lemma acc_type : find_type D (mname d) = Some (struct_t (array_len d)).
Proof using Hgood Hgen Hok Hd. rewrite acc_decls. apply pkg_type; [|done]. rewrite <- acc_decls. apply acc_nd. Qed.
Lemma acc_zero : zero_obj D (mname d) = Some (OMsg (mname d) (msg_zero (mtype_of d))).
Proof using Hgood Hgen Hok Hd.
  unfold zero_obj. rewrite acc_type. cbn. unfold msg_zero. destruct (alen_of d acc_good) as [_ ->]. done.
Qed.
Lemma acc_encode : find_method D (mname d) "Encode" = Some (encode_decl (mname d)).
Proof using Hgood Hgen Hok Hd. assert (H := acc_mk). rewrite acc_decls in *. apply pkg_encode; done. Qed.
Lemma acc_decode : find_method D (mname d) "Decode" = Some (decode_decl (mname d)).
Proof using Hgood Hgen Hok Hd. assert (H := acc_mk). rewrite acc_decls in *. apply pkg_decode; done. Qed.
Lemma acc_reset : find_method D (mname d) "Reset" = Some (reset_decl (mname d)).
Proof using Hgood Hgen Hok Hd. assert (H := acc_mk). rewrite acc_decls in *. apply pkg_reset; done. Qed.
Lemma acc_table : find_set D ("repeatedFields_" +:+ mname d) = Some (reps (mtype_of d)).
Proof using Hgood Hgen Hok Hd.
  unfold find_set. erewrite find_set_in; [reflexivity|apply acc_nd|]. rewrite acc_decls. apply (pkg_table fs d Hd).
Qed.
Lemma acc_len : find_type D "len" = None /\ find_type D "panic" = None.
Proof using Hgood Hgen Hok Hd.
  assert (H := ok_len fs Hgood acc_ok d Hd). assert (H' := ok_panic fs Hgood acc_ok d Hd). rewrite <- acc_decls in *.
  split; apply find_type_none; done.
Qed.

Lemma acc_Encode n σ l m : σ !! l = Some (OMsg (mname d) m) ->
  invoke D (20 + n) σ l "Encode" [] = Ok ([GP (VBytes (Some (m_Encode m)))], σ).
Proof using Hgood Hgen Hok Hd. intros H. apply (b_encode D n σ l (mname d) m); [apply acc_encode|done]. Qed.
Lemma acc_Decode n σ l m b : σ !! l = Some (OMsg (mname d) m) ->
  invoke D (20 + n) σ l "Decode" [GP (VBytes b)] =
  let* (err, m') := m_Decode (mtype_of d) m (default [] b) in Ok ([GErr err], <[l := OMsg (mname d) m']> σ).
Proof using Hgood Hgen Hok Hd.
  intros H. rewrite (b_decode D n σ l _ (alen (mtype_of d)) _ m b acc_decode acc_table H). done.
Qed.
Lemma acc_Reset n σ l m b : σ !! l = Some (OMsg (mname d) m) ->
  invoke D (20 + n) σ l "Reset" [GP (VBytes b)] =
  let* m' := m_Reset m (default [] b) in Ok ([], <[l := OMsg (mname d) m']> σ).
Proof using Hgood Hgen Hok Hd. intros H. apply (b_reset D); try done; [apply acc_reset|apply acc_len|apply acc_len]. Qed.

Section field.
Context (f : option field) (Hf : f ∈ d_fields d) (Hne : f <> None).
Lemma acc_method r nm ps rs b : DFunc r (GPtr (GName (mname d))) nm ps rs b ∈ field_decls (mname d) f ->
  find_method D (mname d) nm = Some (DFunc r (GPtr (GName (mname d))) nm ps rs b).
Proof using Hgood Hgen Hok Hd Hf.
  intros H. apply find_method_in; [apply acc_mk|]. rewrite acc_decls. apply (message_decl_in fs d); [done|]. apply (field_in d f); done.
Qed.
Lemma acc_case : proto_name (getName f) /\ 1 <= getNumber f < 2 ^ 29 /\
  ( (single f /\ getType f = 11 /\ identifier (base_name (getTypeName f)) /\
      forall mt, field_decls mt f = message_decls mt (camel (getName f)) (base_name (getTypeName f)) (getNumber f)) \/
    (single f /\ is_Some (declared_type (getType f)) /\
      exists ty fn, fieldToGoTypeSimple (getType f) = Ok (ty, fn) /\
      forall mt, field_decls mt f = simple_decls mt (camel (getName f)) (go_type (getType f)) fn (getNumber f)) \/
    (repeated f /\ getType f = 11 /\ identifier (base_name (getTypeName f)) /\
      forall mt, field_decls mt f = repeated_decls mt (camel (getName f)) (base_name (getTypeName f)) (mt +:+ base_name (getTypeName f) +:+ "Iterator") (getNumber f)) \/
    (repeated f /\ getType f <> 11 /\ is_Some (declared_type (getType f)) /\ forall mt, field_decls mt f = [])).
Proof using Hgood Hd Hf Hne.
  destruct acc_good as [_ H]. rewrite Forall_forall in H. destruct (good_cases f (H f Hf)) as [->|(_ & C)]; [done|exact C].
Qed.

Lemma acc_simple T g : single f -> declared_type (getType f) = Some (T, g) ->
  exists fn, (fn, T) ∈ codecs /\
  find_method D (mname d) (camel (getName f)) = Some (List.nth 0 (simple_decls (mname d) (camel (getName f)) g fn (getNumber f)) (DType "" bytes_t)) /\
  find_method D (mname d) ("Set" +:+ camel (getName f)) = Some (List.nth 1 (simple_decls (mname d) (camel (getName f)) g fn (getNumber f)) (DType "" bytes_t)).
Proof using Hgood Hgen Hok Hd Hf Hne.
  intros Hs HT. destruct acc_case as (_ & _ & C).
  destruct C as [(_ & E & _)|[(_ & Hd' & ty & fn & Efn & E)|[(Hr & _)|(Hr & _)]]].
  - rewrite E in HT. done.
  - destruct (codec_of _ Hd') as (ty' & fn' & T' & g' & E1 & E2 & E3 & E4). rewrite Efn in E1. injection E1 as <- <-.
    rewrite HT in E2. injection E2 as <- <-. exists fn. split; [done|]. specialize (E (mname d)). rewrite E3 in E.
    split; apply acc_method; rewrite E; [apply elem_of_list_here|apply elem_of_list_further, elem_of_list_here].
  - unfold repeated in Hr. unfold single in Hs. lia.
  - unfold repeated in Hr. unfold single in Hs. lia.
Qed.
Lemma acc_get T g n σ l m : single f -> declared_type (getType f) = Some (T, g) -> σ !! l = Some (OMsg (mname d) m) ->
  invoke D (20 + n) σ l (camel (getName f)) [] = let* v := m_get T m (getNumber f) in Ok ([GP v], σ).
Proof using Hgood Hgen Hok Hd Hf Hne.
  intros Hs HT H. destruct (acc_simple T g Hs HT) as (fn & H1 & H2 & _). apply (b_get D n σ l (mname d) m _ g fn T); done.
Qed.
Lemma acc_set T g n σ l m v : single f -> declared_type (getType f) = Some (T, g) -> σ !! l = Some (OMsg (mname d) m) ->
  invoke D (20 + n) σ l ("Set" +:+ camel (getName f)) [GP v] =
  let* m' := m_set T m (getNumber f) v in Ok ([], <[l := OMsg (mname d) m']> σ).
Proof using Hgood Hgen Hok Hd Hf Hne.
  intros Hs HT H. destruct (acc_simple T g Hs HT) as (fn & H1 & _ & H2). apply (b_set D n σ l (mname d) m _ g fn T); done.
Qed.

(** A field of message type: the type is declared in the package. *)
Context (Hmt : getType f = 11).
Lemma acc_child : exists d', d' ∈ messages fs /\ base_name (getTypeName f) = mname d'.
Proof using Hgood Hgen Hok Hd Hf Hne Hmt. destruct (ok_message_field fs Hgood acc_ok d f Hd Hf Hne Hmt) as (_ & _ & _ & H). done. Qed.
Lemma acc_consts :
  find_set D "nil" = None /\ find_type D "nil" = None /\ find_set D "true" = None /\ find_type D "true" = None /\
  find_set D "false" = None /\ find_type D "false" = None.
Proof using Hgood Hgen Hok Hd Hf Hne Hmt.
  destruct (ok_message_field fs Hgood acc_ok d f Hd Hf Hne Hmt) as (H1 & H2 & H3 & _). rewrite <- acc_decls in *.
  split_and!; first [apply find_set_none; done|apply find_type_none; done].
Qed.
End field.
End message.

Section child.
Context (d d' : descriptor) (Hd : d ∈ messages fs) (Hd' : d' ∈ messages fs).
Context (f : option field) (Hf : f ∈ d_fields d) (Hne : f <> None) (Hmt : getType f = 11) (Hty : base_name (getTypeName f) = mname d').

Lemma acc_Message n σ l l' m x : single f -> σ !! l = Some (OMsg (mname d) m) -> σ !! l' = Some (OMsg (mname d') x) ->
  invoke D (40 + n) σ l (camel (getName f)) [GObj l'] =
  let* (ok, err, x') := m_Message (mtype_of d') m (getNumber f) x in
  Ok ([GP (VBool ok); GErr err], <[l' := OMsg (mname d') x']> σ).
Proof using Hgood Hgen Hok Hd Hd' Hf Hne Hmt Hty.
  intros Hs H1 H2. destruct (acc_case d Hd f Hf Hne) as (_ & _ & C).
  destruct C as [(_ & _ & _ & E)|[(_ & E & _)|[(Hr & _)|(Hr & _)]]]; [|rewrite Hmt in E; destruct E; done|unfold repeated, single in *; lia|unfold repeated, single in *; lia].
  destruct (acc_consts d Hd f Hf Hne Hmt) as (? & ? & ? & ? & ? & ?). specialize (E (mname d)). rewrite Hty in E.
  rewrite (b_message D (mname d') (alen (mtype_of d')) (reps (mtype_of d'))) with (ty := mname d) (m := m) (x := x) (k := getNumber f); try done.
  - apply acc_decode; done.
  - apply acc_table; done.
  - apply (acc_method d Hd f Hf). rewrite E. apply elem_of_list_here.
Qed.
Lemma acc_SetMessage n σ l l' m x : single f -> σ !! l = Some (OMsg (mname d) m) -> σ !! l' = Some (OMsg (mname d') x) ->
  invoke D (40 + n) σ l ("Set" +:+ camel (getName f)) [GObj l'] =
  let* m' := m_SetMessage m (getNumber f) x in Ok ([], <[l := OMsg (mname d) m']> (<[fresh (dom σ) := OMsg (mname d') x]> σ)).
Proof using Hgood Hgen Hok Hd Hd' Hf Hne Hmt Hty.
  intros Hs H1 H2. destruct (acc_case d Hd f Hf Hne) as (_ & _ & C).
  destruct C as [(_ & _ & _ & E)|[(_ & E & _)|[(Hr & _)|(Hr & _)]]]; [|rewrite Hmt in E; destruct E; done|unfold repeated, single in *; lia|unfold repeated, single in *; lia].
  specialize (E (mname d)). rewrite Hty in E.
  rewrite (b_set_message D (mname d')) with (ty := mname d) (m := m) (x := x) (k := getNumber f); try done.
  - apply acc_encode; done.
  - apply (acc_method d Hd f Hf). rewrite E. apply elem_of_list_further, elem_of_list_here.
Qed.
Lemma acc_repeated : repeated f ->
  let nm := camel (getName f) in let t := mname d' in let it := iterator d f in let k := getNumber f in
  find_type D it = Some bytes_t /\
  find_method D it "Next" = Some (List.nth 1 (repeated_decls (mname d) nm t it k) (DType "" bytes_t)) /\
  find_method D (mname d) nm = Some (List.nth 2 (repeated_decls (mname d) nm t it k) (DType "" bytes_t)) /\
  find_method D (mname d) ("AppendTo" +:+ nm) = Some (List.nth 3 (repeated_decls (mname d) nm t it k) (DType "" bytes_t)).
Proof using Hgood Hgen Hok Hd Hd' Hf Hne Hmt Hty.
  intros Hs. destruct (acc_case d Hd f Hf Hne) as (_ & _ & C).
  destruct C as [(Hr & _)|[(Hr & _)|[(_ & _ & _ & E)|(_ & Hr & _)]]]; [unfold repeated, single in *; lia|unfold repeated, single in *; lia| |done].
  specialize (E (mname d)). intros nm t it k. assert (Eit : it = mname d +:+ base_name (getTypeName f) +:+ "Iterator") by done.
  rewrite <- Eit, Hty in E. fold nm t k in E. clearbody it.
  split; [|split; [|split]].
  - apply find_type_in; [apply acc_nd|]. rewrite acc_decls. apply (message_decl_in fs d); [done|]. apply (field_in d f); [done|]. rewrite E. apply elem_of_list_here.
  - apply find_method_in; [apply acc_mk|]. rewrite acc_decls. apply (message_decl_in fs d); [done|]. apply (field_in d f); [done|]. rewrite E. apply elem_of_list_further, elem_of_list_here.
  - apply (acc_method d Hd f Hf). rewrite E. apply elem_of_list_further, elem_of_list_further, elem_of_list_here.
  - apply (acc_method d Hd f Hf). rewrite E. apply elem_of_list_further, elem_of_list_further, elem_of_list_further, elem_of_list_here.
Qed.
Lemma acc_Iter n σ l m : repeated f -> σ !! l = Some (OMsg (mname d) m) ->
  invoke D (40 + n) σ l (camel (getName f)) [] = let* i := m_Iter m (getNumber f) in Ok ([GP (VBytes i)], σ).
Proof using Hgood Hgen Hok Hd Hd' Hf Hne Hmt Hty.
  intros Hs H1. destruct (acc_repeated Hs) as (E1 & _ & E2 & _).
  eapply b_iter; [exact E2|exact E1| |exact H1].
  intros E. apply (f_equal String.length) in E. unfold iterator in E. rewrite !slen_app in E. cbn in E. lia.
Qed.
Lemma acc_Next n σ li l' i x : repeated f -> σ !! li = Some (OBytes (iterator d f) i) -> σ !! l' = Some (OMsg (mname d') x) ->
  invoke D (40 + n) σ li "Next" [GObj l'] =
  let* (i', ok, err, x') := it_Next (mtype_of d') i (getNumber f) x in
  Ok ([GP (VBool ok); GErr err], <[l' := OMsg (mname d') x']> (<[li := OBytes (iterator d f) i']> σ)).
Proof using Hgood Hgen Hok Hd Hd' Hf Hne Hmt Hty.
  intros Hs H1 H2. destruct (acc_repeated Hs) as (_ & E1 & _ & _). destruct (acc_consts d Hd f Hf Hne Hmt) as (? & ? & ? & ? & ? & ?).
  rewrite (b_next D (mname d') (alen (mtype_of d')) (reps (mtype_of d'))) with (ty := mname d) (nm := camel (getName f)) (it := iterator d f) (i := i) (x := x) (k := getNumber f); try done.
  - apply acc_decode; done.
  - apply acc_table; done.
Qed.
Lemma acc_AppendTo n σ l l' m x : repeated f -> σ !! l = Some (OMsg (mname d) m) -> σ !! l' = Some (OMsg (mname d') x) ->
  invoke D (40 + n) σ l ("AppendTo" +:+ camel (getName f)) [GObj l'] =
  let* m' := m_AppendTo m (getNumber f) x in Ok ([], <[l := OMsg (mname d) m']> (<[fresh (dom σ) := OMsg (mname d') x]> σ)).
Proof using Hgood Hgen Hok Hd Hd' Hf Hne Hmt Hty.
  intros Hs H1 H2. destruct (acc_repeated Hs) as (_ & _ & _ & E1).
  rewrite (b_append D (mname d')) with (ty := mname d) (m := m) (x := x) (it := iterator d f) (k := getNumber f); try done.
  apply acc_encode; done.
Qed.
End child.
End accepted.

(** * Generated packages: names, and when the compiler accepts them *)
From Verif Require Import Gen GoLang GoCheck GoCheckFacts GenSpec GenLex GenText GenNames GenAst GenFile GenCheck.
From Coq Require Import ZifyBool.

Definition file_ast (f : file) : gofile :=
  mkGoFile (default "" (fl_package f)) ["github.com/danhhz/zeropb"] (file_decls f).
Definition pkg_decls (fs : list file) : list decl := List.concat (map gf_decls (map file_ast fs)).

Lemma file_decls_messages f : file_decls f = List.concat (map message_file_decls (somes (fl_messages f))).
Proof.
  unfold file_decls, somes. induction (fl_messages f) as [|[d|] l IH]; [done| |]; [|exact IH].
  cbn [map List.concat omap list_omap id]. f_equal. exact IH.
Qed.
Lemma pkg_decls_messages fs : pkg_decls fs = List.concat (map message_file_decls (messages fs)).
Proof.
  unfold pkg_decls, messages. induction fs as [|f fs IH]; [done|].
  cbn [map List.concat gf_decls file_ast]. rewrite IH, file_decls_messages, map_app, concat_app. done.
Qed.
Lemma good_messages fs : Forall good_file fs -> Forall good_message (messages fs).
Proof.
  intros H. apply Forall_forall. intros d Hd. unfold messages in Hd.
  apply elem_of_list_In, in_concat in Hd as (l & Hl & Hd). apply in_map_iff in Hl as (f & <- & Hf).
  apply elem_of_list_In in Hf, Hd. rewrite Forall_forall in H. destruct (H f Hf) as [_ Hm].
  unfold somes in Hd. apply elem_of_list_omap in Hd as (o & Ho & E). rewrite Forall_forall in Hm. specialize (Hm o Ho).
  destruct o; [|done]. injection E as ->. done.
Qed.

Lemma pkg_names_app a b : pkg_names (a ++ b) = pkg_names a ++ pkg_names b.
Proof. unfold pkg_names. rewrite map_app, concat_app. done. Qed.
Lemma pkg_names_concat l : pkg_names (List.concat l) = List.concat (map pkg_names l).
Proof. induction l as [|a l IH]; [done|]. cbn [List.concat map]. rewrite pkg_names_app, IH. done. Qed.
Lemma method_keys_app a b : method_keys (a ++ b) = method_keys a ++ method_keys b.
Proof. unfold method_keys. rewrite map_app, concat_app. done. Qed.
Lemma method_keys_concat l : method_keys (List.concat l) = List.concat (map method_keys l).
Proof. induction l as [|a l IH]; [done|]. cbn [List.concat map]. rewrite method_keys_app, IH. done. Qed.

Lemma iterator_name_eq d f : iterator_name (mname d) f = iterator d f.
Proof. unfold iterator_name, iterator. rewrite base_name_fun. done. Qed.

(** The cases of a good field. *)
Lemma good_cases f : good_field f ->
  f = None \/
  f <> None /\ proto_name (getName f) /\ 1 <= getNumber f < 2 ^ 29 /\
  ( (single f /\ getType f = 11 /\ identifier (base_name (getTypeName f)) /\
      forall mt, field_decls mt f = message_decls mt (camel (getName f)) (base_name (getTypeName f)) (getNumber f)) \/
    (single f /\ is_Some (declared_type (getType f)) /\
      exists ty fn, fieldToGoTypeSimple (getType f) = Ok (ty, fn) /\
      forall mt, field_decls mt f = simple_decls mt (camel (getName f)) (go_type (getType f)) fn (getNumber f)) \/
    (repeated f /\ getType f = 11 /\ identifier (base_name (getTypeName f)) /\
      forall mt, field_decls mt f = repeated_decls mt (camel (getName f)) (base_name (getTypeName f)) (mt +:+ base_name (getTypeName f) +:+ "Iterator") (getNumber f)) \/
    (repeated f /\ getType f <> 11 /\ is_Some (declared_type (getType f)) /\ forall mt, field_decls mt f = [])).
Proof.
  intros [->|(Hnm & Hk & Hlab & Hty)]; [auto|]. destruct f as [f|]; [|auto]. right. split; [done|]. split; [done|]. split; [done|].
  assert (Hc := goCase_camel _ (proto_name_chars _ Hnm)).
  unfold field_decls, iterator_name. rewrite Hc, base_name_fun. set (F := Some f) in *. clearbody F.
  destruct Hty as [(t & (Hty & Htn) & Ht)|Hty].
  - rewrite Hty. change (11 =? TYPE_MESSAGE) with true. cbn match.
    assert (Et := last_component_base _ _ Htn).
    destruct Hlab as [Hs|Hr].
    + left. assert (E : (getLabel F =? LABEL_OPTIONAL) || (getLabel F =? LABEL_REQUIRED) = true).
      { destruct Hs as [->| ->]; done. }
      rewrite E, Et. auto.
    + right; right; left. rewrite Hr, Et.
      change ((3 =? LABEL_OPTIONAL) || (3 =? LABEL_REQUIRED)) with false. change (3 =? LABEL_REPEATED) with true. auto.
  - destruct (simple_table _ Hty) as (ty & fn & Efn & Hne & Hin).
    replace (getType F =? TYPE_MESSAGE) with false by lia.
    destruct Hlab as [Hs|Hr].
    + right; left. assert (E : (getLabel F =? LABEL_OPTIONAL) || (getLabel F =? LABEL_REQUIRED) = true).
      { destruct Hs as [->| ->]; done. }
      rewrite E, Efn. split; [done|]. split; [done|]. eexists _, _. split; [done|]. done.
    + right; right; right. split; [done|]. split; [done|]. split; [done|]. intros mt. rewrite Hr.
      change ((3 =? LABEL_OPTIONAL) || (3 =? LABEL_REQUIRED)) with false. change (3 =? LABEL_REPEATED) with true. done.
Qed.
Lemma single_not3 f : single f -> (getLabel f =? 3) = false.
Proof. intros [-> | ->]; done. Qed.
Lemma repeated_3 f : repeated f -> (getLabel f =? 3) = true.
Proof. intros ->; done. Qed.
Lemma declared_not11 f : is_Some (declared_type (getType f)) -> (getType f =? 11) = false.
Proof. intros H. destruct (Z.eqb_spec (getType f) 11) as [E|]; [|done]. rewrite E in H. destruct H; done. Qed.

Lemma names_field d f : good_field f ->
  pkg_names (field_decls (mname d) f) = (if (getLabel f =? 3) && (getType f =? 11) then [iterator d f] else []) .
Proof.
  intros H. destruct (good_cases f H) as [->|(Hs & Hn & Hk & C)]; [done|].
  destruct C as [(Hl & Ht & _ & E)|[(Hl & Ht & ty & fn & _ & E)|[(Hl & Ht & _ & E)|(Hl & Ht & _ & E)]]]; rewrite E.
  - rewrite single_not3 by done. done.
  - rewrite single_not3 by done. done.
  - rewrite repeated_3, Ht by done. done.
  - rewrite repeated_3 by done. replace (getType f =? 11) with false by lia. done.
Qed.
Lemma names_message d : good_message d -> pkg_names (message_file_decls d) = package_names d.
Proof.
  intros [_ H]. unfold message_file_decls, package_names. rewrite pkg_names_app. cbn [header_decls]. f_equal.
  rewrite pkg_names_concat, map_map. unfold repeated_messages. induction H as [|f fs Hf _ IH]; [done|].
  cbn [map List.concat List.filter]. fold (mname d). rewrite names_field by done. fold (mname d) in IH. rewrite IH.
  destruct ((getLabel f =? 3) && (getType f =? 11)); done.
Qed.
Lemma names_package fs : Forall good_file fs -> pkg_names (pkg_decls fs) = List.concat (map package_names (messages fs)).
Proof.
  intros H. apply good_messages in H. rewrite pkg_decls_messages, pkg_names_concat, map_map.
  induction H as [|d l Hd _ IH]; [done|]. cbn [map List.concat]. rewrite names_message, IH by done. done.
Qed.

Lemma keys_field d f : good_field f ->
  method_keys (field_decls (mname d) f) ≡ₚ
  map (pair (mname d)) (accessors f) ++ (if (getLabel f =? 3) && (getType f =? 11) then [(iterator d f, "Next")] else []).
Proof.
  intros H. destruct (good_cases f H) as [->|(Hs & Hn & Hk & C)]; [done|].
  destruct f as [f|]; [|done]. unfold accessors.
  destruct C as [(Hl & Ht & _ & E)|[(Hl & Ht & ty & fn & _ & E)|[(Hl & Ht & _ & E)|(Hl & Ht & _ & E)]]]; rewrite E.
  - rewrite single_not3 by done. done.
  - rewrite single_not3 by done. done.
  - rewrite repeated_3, Ht by done. cbn. change [(iterator d (Some f), "Next")] with [(iterator d (Some f), "Next")].
    unfold iterator. solve_Permutation || (rewrite perm_swap; apply perm_skip; apply perm_swap).
  - rewrite repeated_3 by done. replace (getType (Some f) =? 11) with false by lia. done.
Qed.
Lemma keys_message d : good_message d ->
  method_keys (message_file_decls d) ≡ₚ map (pair (mname d)) (methods d) ++ map (fun f => (iterator d f, "Next")) (repeated_messages d).
Proof.
  intros [_ H]. unfold message_file_decls, methods. rewrite method_keys_app, map_app, <- app_assoc. cbn [header_decls].
  apply Permutation_app; [done|]. rewrite method_keys_concat, map_map. unfold repeated_messages.
  fold (mname d). induction H as [|f fs Hf _ IH]; [done|].
  cbn [map List.concat List.filter]. rewrite keys_field, IH by done. rewrite map_app.
  destruct ((getLabel f =? 3) && (getType f =? 11)); cbn [map].
  - rewrite <- !app_assoc. apply Permutation_app_head. cbn [app]. rewrite Permutation_middle. done.
  - rewrite app_nil_r, <- app_assoc. done.
Qed.

Lemma nodup_concat {A K N} (keys : A -> list K) (names : A -> list N) (fstk : K -> N) l :
  NoDup (List.concat (map names l)) -> Forall (fun a => NoDup (keys a)) l ->
  Forall (fun a => Forall (fun k => fstk k ∈ names a) (keys a)) l -> NoDup (List.concat (map keys l)).
Proof.
  intros Hnd Hk Hin. induction l as [|a l IH]; [constructor|].
  cbn [map List.concat] in *. apply NoDup_app in Hnd as (H1 & H2 & H3).
  inversion Hk; inversion Hin; subst. apply NoDup_app. split; [done|]. split; [|auto].
  intros k Hka Hkl. rewrite Forall_forall in H8. apply (H2 (fstk k)); [auto|].
  apply elem_of_list_In, in_concat in Hkl as (x & Hx & Hkx). apply in_map_iff in Hx as (b & <- & Hb).
  apply elem_of_list_In in Hb, Hkx. rewrite Forall_forall in H9. specialize (H9 b Hb). rewrite Forall_forall in H9.
  apply elem_of_list_In, in_concat. exists (names b). split; [apply in_map, elem_of_list_In; done|].
  apply elem_of_list_In. auto.
Qed.

Lemma slen_app a b : String.length (a +:+ b) = (String.length a + String.length b)%nat.
Proof. induction a as [|c a IH]; [done|]. cbn. rewrite IH. done. Qed.
Lemma good_names d x : good_message d -> x ∈ map (iterator d) (repeated_messages d) -> x <> mname d.
Proof.
  intros [[Hi _] _] Hx E. apply elem_of_list_fmap in Hx as (f & -> & _). unfold iterator in E.
  apply (f_equal String.length) in E. rewrite !slen_app in E. cbn in E. lia.
Qed.

Lemma keys_nodup fs : Forall good_file fs -> NoDup (List.concat (map package_names (messages fs))) ->
  NoDup (method_keys (pkg_decls fs)) <-> Forall (fun d => NoDup (methods d)) (messages fs).
Proof.
  intros H Hnd. apply good_messages in H. rewrite pkg_decls_messages, method_keys_concat, map_map. split.
  - intros HK. apply Forall_forall. intros d Hd. rewrite Forall_forall in H. specialize (H d Hd).
    assert (HKd : NoDup (method_keys (message_file_decls d))).
    { clear -HK Hd. induction (messages fs) as [|d' l IH]; [apply elem_of_nil in Hd; done|].
      cbn [map List.concat] in HK. apply NoDup_app in HK as (H1 & _ & H3). apply elem_of_cons in Hd as [->|Hd]; auto. }
    rewrite (keys_message d H) in HKd. apply NoDup_app in HKd as (HK1 & _). eapply NoDup_fmap_1; exact HK1.
  - intros HM. apply (nodup_concat _ package_names fst); [done| |].
    + apply Forall_forall. intros d Hd. rewrite Forall_forall in H, HM. specialize (H d Hd). specialize (HM d Hd).
      rewrite (keys_message d H).
      assert (Hpn : NoDup (package_names d)).
      { clear -Hnd Hd. induction (messages fs) as [|d' l IH]; [apply elem_of_nil in Hd; done|].
        cbn [map List.concat] in Hnd. apply NoDup_app in Hnd as (H1 & _ & H3). apply elem_of_cons in Hd as [->|Hd]; auto. }
      unfold package_names in Hpn. apply NoDup_app in Hpn as (_ & _ & Hit). apply NoDup_app. split; [|split].
      * apply NoDup_fmap_2; [intros ? ? [= ->]; done|done].
      * intros k Hk Hk'. apply elem_of_list_fmap in Hk as (m & -> & _). apply elem_of_list_fmap in Hk' as (f & E & Hf).
        injection E as E _. apply (good_names d (mname d) H); [|done]. rewrite E. apply elem_of_list_fmap. exists f. done.
      * clear -Hit. induction (repeated_messages d) as [|f l IH]; [constructor|].
        cbn [map] in *. apply NoDup_cons in Hit as [H1 H2]. apply NoDup_cons. split; [|auto].
        intros Hin. apply elem_of_list_fmap in Hin as (g & E & Hg). injection E as E. apply H1. rewrite E.
        apply elem_of_list_fmap. exists g. done.
    + apply Forall_forall. intros d Hd. rewrite Forall_forall in H. specialize (H d Hd). rewrite (keys_message d H).
      apply Forall_app. split; apply Forall_forall; intros k Hk; apply elem_of_list_fmap in Hk as (y & -> & Hy); cbn [fst]; unfold package_names.
      * apply elem_of_list_here.
      * apply elem_of_app. right. apply elem_of_list_fmap. exists y. done.
Qed.

(** ** Declarations of a message in its package *)
Lemma message_decl_in fs d x : d ∈ messages fs -> x ∈ message_file_decls d -> x ∈ pkg_decls fs.
Proof.
  intros Hd Hx. rewrite pkg_decls_messages. apply elem_of_list_In, in_concat. exists (message_file_decls d).
  split; [apply in_map, elem_of_list_In; done|apply elem_of_list_In; done].
Qed.
Lemma header_in d x : x ∈ header_decls (mname d) d -> x ∈ message_file_decls d.
Proof. intros H. apply elem_of_app. auto. Qed.
Lemma field_in d f x : f ∈ d_fields d -> x ∈ field_decls (mname d) f -> x ∈ message_file_decls d.
Proof.
  intros H1 H2. apply elem_of_app. right. apply elem_of_list_In, in_concat. eexists. split; [apply in_map, elem_of_list_In, H1|apply elem_of_list_In; done].
Qed.
Ltac in_header := apply header_in; unfold header_decls; repeat (first [apply elem_of_list_here|apply elem_of_list_further]).

Section pkg.
Context (fs : list file) (Hgood : Forall good_file fs).
Context (Hnd : NoDup (pkg_names (pkg_decls fs))) (Hmk : NoDup (method_keys (pkg_decls fs))).
Context (d : descriptor) (Hd : d ∈ messages fs).
Lemma pkg_good : good_message d.
Proof. apply good_messages in Hgood. rewrite Forall_forall in Hgood. auto. Qed.
Lemma pkg_type : find_type (pkg_decls fs) (mname d) = Some (struct_t (array_len d)).
Proof. apply find_type_in; [done|]. apply (message_decl_in fs d); [done|]. in_header. Qed.
Lemma pkg_table : DSet ("repeatedFields_" +:+ mname d) (GQual "zeropb" "RepeatedFields") (repeated_keys (d_fields d)) ∈ pkg_decls fs.
Proof. apply (message_decl_in fs d); [done|]. in_header. Qed.
Lemma pkg_encode : find_method (pkg_decls fs) (mname d) "Encode" = Some (encode_decl (mname d)).
Proof. apply find_method_in; [done|]. apply (message_decl_in fs d); [done|]. in_header. Qed.
Lemma pkg_decode : find_method (pkg_decls fs) (mname d) "Decode" = Some (decode_decl (mname d)).
Proof. apply find_method_in; [done|]. apply (message_decl_in fs d); [done|]. in_header. Qed.
Lemma pkg_reset : find_method (pkg_decls fs) (mname d) "Reset" = Some (reset_decl (mname d)).
Proof. apply find_method_in; [done|]. apply (message_decl_in fs d); [done|]. in_header. Qed.
Lemma pkg_len : 0 <= array_len d.
Proof. destruct pkg_good as [_ H]. destruct (largest_ok _ H) as [? _]. unfold array_len. lia. Qed.
End pkg.

(** ** Acceptance *)
Lemma has_upper_camel f : proto_name (getName f) -> has_upper (camel (getName f)) = true.
Proof.
  intros H. rewrite <- goCase_camel by (apply proto_name_chars; done). destruct (goCase_head _ H) as (c & r & -> & Hu).
  cbn. rewrite Hu. done.
Qed.

Lemma simple_types t : is_Some (declared_type t) -> exists ty fn u,
  fieldToGoTypeSimple t = Ok (ty, fn) /\ (go_type t, u) ∈ go_tys /\
  zeropb_func ("Get" +:+ fn) = Some (getter u) /\ zeropb_func ("Set" +:+ fn) = Some (setter u).
Proof.
  intros H. destruct (simple_table t H) as (ty & fn & E & _ & Hin).
  repeat (apply elem_of_cons in Hin as [Hin|Hin];
    [injection Hin as -> -> Hg; eexists _, _, _; split; [exact E|]; rewrite Hg; split;
      [|split; reflexivity]; unfold go_tys; cbn [map]; repeat (first [apply elem_of_list_here|apply elem_of_list_further])|]).
  apply elem_of_nil in Hin. done.
Qed.

Theorem clash_free_ok fs : Forall good_file fs -> clash_free fs -> package_ok (map file_ast fs) = true.
Proof.
  intros Hgood C. unfold package_ok. fold (pkg_decls fs).
  assert (Hnm := names_package fs Hgood).
  assert (Hnd : NoDup (pkg_names (pkg_decls fs))) by (rewrite Hnm; apply C).
  assert (Hmk : NoDup (method_keys (pkg_decls fs))) by (apply keys_nodup; [done|apply C|apply C]).
  assert (Hword : forall x, used_word fs x -> mem x (pkg_names (pkg_decls fs)) = false).
  { intros x Hx. apply mem_not. rewrite Hnm. intros Hin. apply (cf_words fs C x); done. }
  assert (Hres : forall x, x ∈ always -> mem x (pkg_names (pkg_decls fs)) = false) by (intros x Hx; apply Hword; left; done).
  rewrite (proj2 (distinct_strings _) Hnd), (proj2 (distinct_keys _) Hmk).
  rewrite !Hres by (apply mem_In; done). cbn [negb andb].
  apply andb_true_iff. split.
  - destruct (cf_some fs C) as [Hne _].
    assert (Hp : forall f g, f ∈ fs -> g ∈ fs -> default "" (fl_package f) = default "" (fl_package g)) by apply C.
    clear -Hne Hp. destruct fs as [|f0 fs]; [done|].
    change (forallb (fun g => String.eqb (gf_package g) (gf_package (file_ast f0))) (map file_ast (f0 :: fs)) = true).
    apply forallb_forall. intros g Hg. apply in_map_iff in Hg as (f & <- & Hf). apply String.eqb_eq. cbn [gf_package file_ast].
    apply Hp; [apply elem_of_list_In; done|apply elem_of_list_here].
  - apply forallb_forall. intros g Hg. apply in_map_iff in Hg as (f & <- & Hf). apply elem_of_list_In in Hf.
    unfold file_ok. cbn [gf_imports gf_decls gf_package file_ast].
    change (omap import_name ["github.com/danhhz/zeropb"]) with ["zeropb"]. cbn [List.length Nat.eqb].
    change (distinct String.eqb ["zeropb"]) with true. cbn [forallb]. rewrite Hres by (apply mem_In; done). cbn [negb andb].
    destruct (cf_some fs C) as [_ Hsome]. rewrite Forall_forall in Hsome. specialize (Hsome f Hf).
    assert (Hpk := cf_package_name fs C). rewrite Forall_forall in Hpk. specialize (Hpk f Hf).
    assert (Hsub : forall d, d ∈ somes (fl_messages f) -> d ∈ messages fs).
    { intros d Hd. unfold messages. apply elem_of_list_In, in_concat. exists (somes (fl_messages f)).
      split; [apply in_map_iff; exists f; split; [done|apply elem_of_list_In; done]|apply elem_of_list_In; done]. }
    rewrite !andb_true_iff. split; [split; [split; [split; [|done]|]|]|].
    + rewrite file_decls_messages. destruct (somes (fl_messages f)) as [|d l]; [done|]. reflexivity.
    + apply negb_true_iff, String.eqb_neq. apply Hpk.
    + apply negb_true_iff, String.eqb_neq. apply Hpk.
    + apply forallb_forall. intros x Hx. rewrite file_decls_messages in Hx. apply in_concat in Hx as (l & Hl & Hx).
      apply in_map_iff in Hl as (d & <- & Hd). apply elem_of_list_In in Hd. apply Hsub in Hd.
      assert (Hdg := pkg_good fs Hgood d Hd). assert (Hdt := pkg_type fs Hnd d Hd). assert (Hlen := pkg_len fs Hgood d Hd).
      apply in_app_iff in Hx as [Hx|Hx].
      * fold (mname d) in Hx. cbn [header_decls In] in Hx.
        destruct Hx as [<-|[<-|[<-|[<-|[<-|[]]]]]].
        -- apply struct_ok; done.
        -- apply table_ok.
           ++ assert (Hks := cf_keys fs C). rewrite Forall_forall in Hks. specialize (Hks d Hd).
              exact Hks.
           ++ apply Forall_forall. intros k Hk. apply elem_of_list_fmap in Hk as (g & -> & Hg).
              apply elem_of_list_In, filter_In in Hg as [Hg _]. apply elem_of_list_In in Hg.
              destruct Hdg as [_ Hfs]. rewrite Forall_forall in Hfs. apply good_number. auto.
        -- apply encode_ok with (n := array_len d); done.
        -- eapply decode_ok with (n := array_len d); try done. apply pkg_table. done.
        -- apply reset_ok with (n := array_len d); done.
      * fold (mname d) in Hx. apply in_concat in Hx as (l & Hl & Hx). apply in_map_iff in Hl as (g & <- & Hg).
        apply elem_of_list_In in Hg. destruct Hdg as [Hdi Hfs]. rewrite Forall_forall in Hfs. assert (Hgg := Hfs g Hg).
        revert x Hx. apply forallb_forall.
        destruct (good_cases g Hgg) as [->|(Hs & Hn & Hk & Cs)]; [done|].
        assert (Hup := has_upper_camel g Hn).
        assert (Hty : getType g = 11 -> exists d', d' ∈ messages fs /\ base_name (getTypeName g) = mname d').
        { intros E. assert (H := cf_types fs C d g Hd Hg Hs E). apply elem_of_list_fmap in H as (d' & E' & H). eauto. }
        assert (Hmw : getType g = 11 -> forall x, x ∈ message_words -> mem x (pkg_names (pkg_decls fs)) = false).
        { intros Eg x Hx. apply Hword. right. exists d, g. eauto 8. }
        destruct Cs as [(Hl & Ht & _ & E)|[(Hl & Ht & ty & fn & Efn & E)|[(Hl & Ht & _ & E)|(Hl & Ht & _ & E)]]]; rewrite E; [| | |done].
        -- destruct (Hty Ht) as (d' & Hd' & Ed'). rewrite Ed'. eapply message_ok with (n := array_len d); try done.
           ++ apply Hmw, Ht.
           ++ apply (pkg_type fs Hnd d' Hd').
           ++ apply pkg_encode; done.
           ++ apply pkg_decode; done.
           ++ lia.
        -- destruct (simple_types _ Ht) as (ty' & fn' & u & Efn' & Hu & HG & HS). rewrite Efn in Efn'. injection Efn' as <- <-.
           eapply simple_ok with (n := array_len d); try done; [lia|].
           intros x Ex. apply Hword. right. exists d, g. split; [done|]. split; [done|]. split; [done|]. right. split; [done|].
           unfold go_type in Ex. destruct (declared_type (getType g)) as [[T ?]|] eqn:ET; [|destruct Ht; done]. subst. eauto.
        -- destruct (Hty Ht) as (d' & Hd' & Ed'). rewrite Ed'. eapply repeated_ok with (n := array_len d); try done.
           ++ apply Hmw, Ht.
           ++ apply (pkg_type fs Hnd d' Hd').
           ++ apply pkg_encode; done.
           ++ apply pkg_decode; done.
           ++ lia.
           ++ apply find_type_in; [done|]. apply (message_decl_in fs d); [done|]. apply (field_in d g); [done|].
              rewrite E, Ed'. apply elem_of_list_here.
           ++ rewrite !has_upper_app. change (has_upper "Iterator") with true. rewrite !orb_true_r. done.
Qed.

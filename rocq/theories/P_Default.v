(** * Property C70: absent descriptor entries *)
From Verif Require Import Gen Golden P_Gen.
From stdpp Require Import base list.
From Coq Require Import String.
#[local] Open Scope Z_scope.

(** ** Specification: what an absent entry of a descriptor means in protobuf
    (descriptor.proto, proto2 defaults: number 0, label LABEL_OPTIONAL = 1, type
    TYPE_DOUBLE = 1, strings empty).  A nil element of a list is no element. *)
Definition filled_field (f : field) : field :=
  mkField (Some (default ""%string (fd_name f))) (Some (default 0 (fd_number f))) (Some (default 1 (fd_label f)))
          (Some (default 1 (fd_type f))) (Some (default ""%string (fd_type_name f))).
Definition present {A} (l : list (option A)) : list A := flat_map (fun x => match x with Some a => [a] | None => [] end) l.
Definition filled_desc (d : descriptor) : descriptor :=
  mkDesc (Some (default ""%string (d_name d))) (map (fun f => Some (filled_field f)) (present (d_fields d))).
Definition filled_file (f : file) : file :=
  mkFile (Some (default ""%string (fl_name f))) (Some (default ""%string (fl_package f)))
         (map (fun d => Some (filled_desc d)) (present (fl_messages f))).
Definition filled_request (r : request) : request :=
  mkReq (rq_files r) (map (fun f => Some (filled_file f)) (present (rq_protos r))).

Lemma present_cons {A} (x : option A) l : present (x :: l) = match x with Some a => a :: present l | None => present l end.
Proof. destruct x; reflexivity. Qed.

Lemma largest_filled fs : forall n, 0 <= n ->
  fold_left (fun largest f => if largest <? getNumber f then getNumber f else largest) (map (fun f => Some (filled_field f)) (present fs)) n =
  fold_left (fun largest f => if largest <? getNumber f then getNumber f else largest) fs n.
Proof.
  induction fs as [|[f|] fs IH]; intros n Hn; [reflexivity| |].
  - rewrite present_cons. cbn [map fold_left]. change (getNumber (Some (filled_field f))) with (getNumber (Some f)).
    apply IH. destruct (n <? getNumber (Some f)) eqn:E; [|exact Hn]. apply Z.ltb_lt in E. lia.
  - rewrite present_cons. cbn [fold_left]. change (getNumber None) with 0. replace (n <? 0) with false by (symmetry; apply Z.ltb_ge; exact Hn).
    apply IH, Hn.
Qed.

Lemma for_each_filled (body : tree -> option field -> res tree) fs : forall st,
  (forall st, body st None = Ok st) -> (forall st f, body st (Some (filled_field f)) = body st (Some f)) ->
  for_each st (map (fun f => Some (filled_field f)) (present fs)) body = for_each st fs body.
Proof.
  induction fs as [|[f|] fs IH]; intros st H0 H1; [reflexivity| |]; rewrite present_cons; cbn [map for_each].
  - rewrite H1. destruct (body st (Some f)) as [st'| | |]; cbn [rbind]; [apply IH; assumption|reflexivity..].
  - rewrite H0. cbn [rbind]. apply IH; assumption.
Qed.

Lemma generateMessage_filled st i d : generateMessage st i (filled_desc d) = generateMessage st i d.
Proof.
  unfold generateMessage. cbn [filled_desc d_name d_fields default].
  unfold largestFieldID. rewrite largest_filled by lia.
  destruct (puts _ _) as [st1| | |]; cbn [rbind]; [|reflexivity..].
  rewrite for_each_filled by (intros; reflexivity).
  destruct (for_each _ _ _) as [st2| | |]; cbn [rbind]; [|reflexivity..].
  destruct (puts _ _) as [st3| | |]; cbn [rbind]; [|reflexivity..].
  apply for_each_filled; intros; reflexivity.
Qed.

Lemma generateFile_filled f : generateFile (filled_file f) = generateFile f.
Proof.
  unfold generateFile. cbn [filled_file fl_name fl_package fl_messages default].
  destruct (puts _ _) as [st| | |]; cbn [rbind]; [|reflexivity..].
  assert (E : forall ms st, for_each st (map (fun d => Some (filled_desc d)) (present ms))
      (fun st m => match m with None => Ok st | Some m => generateMessage st 0 m end) =
    for_each st ms (fun st m => match m with None => Ok st | Some m => generateMessage st 0 m end)).
  { induction ms as [|[d|] ms IH]; intros st'; [reflexivity| |]; rewrite present_cons; cbn [map for_each].
    - rewrite generateMessage_filled. destruct (generateMessage _ _ _) as [st''| | |]; cbn [rbind]; [apply IH|reflexivity..].
    - cbn [rbind]. apply IH. }
  rewrite E. reflexivity.
Qed.

(** The plugin treats absent entries of the request as protobuf prescribes: the
    response (or panic) is the one for the request with every entry spelled out
    and nil elements removed. *)
Theorem C70_absent_entries rq : Generate (filled_request rq) = Generate rq.
Proof.
  unfold Generate. cbn [filled_request rq_files rq_protos]. generalize (rq_files rq) as wanted. intros wanted.
  induction (rq_protos rq) as [|[f|] ps IH]; [reflexivity| |]; rewrite present_cons; cbn [map generate_files].
  - change (default ""%string (fl_name (filled_file f))) with (default ""%string (fl_name f)). rewrite generateFile_filled, IH. reflexivity.
  - exact IH.
Qed.

(** In particular a field entry with only a name is an optional double with
    number 0. *)
Definition sparse_request : request :=
  mkReq ["a.proto"%string] [None; Some (mkFile (Some "a.proto"%string) (Some "a"%string)
    [None; Some (mkDesc (Some "M"%string) [None; Some (mkField (Some "x"%string) None None None None)])])].
Example C70_case :
  filled_request sparse_request =
    mkReq ["a.proto"%string] [Some (mkFile (Some "a.proto"%string) (Some "a"%string)
      [Some (mkDesc (Some "M"%string) [Some (mkField (Some "x"%string) (Some 0) (Some 1) (Some 1) (Some ""%string))])])] /\
  filled_request sparse_request <> sparse_request /\
  exists s, Generate sparse_request = Ok [("a.zeropb.go"%string, s)].
Proof. split; [reflexivity|]. split; [discriminate|]. eexists. vm_compute. reflexivity. Qed.

Print Assumptions C70_absent_entries.

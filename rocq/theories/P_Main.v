(** * Property C55: the commands *)
From Verif Require Import Gen GenSpec Main P_Gen.
From Verif Require TextFacts.

(** Whatever the world does: standard output receives nothing or (a prefix of) the
    encoding of the response to the request on standard input, one file per
    requested descriptor; the whole of it unless the write itself fails, and all
    failures are reported on standard error or by a panic.
    Missing: the exit status, see below. *)
Theorem C55_output_partial e :
  match e_stdin e with
  | inr er => main e = mkProc [] (er +:+ nl) 0
  | inl bs =>
    match e_unmarshal e bs with
    | inr er => main e = mkProc [] (er +:+ nl) 0
    | inl r =>
      ((exists f, f ∈ requested r /\ unsupported_file f) /\ main e = mkProc [] (e_trace e) 2) \/
      exists out, Forall2 (fun f p => generateFile f = Ok p) (requested r) out /\
        match e_marshal e out with
        | inr er => main e = mkProc [] (er +:+ nl) 0
        | inl rb => p_stdout (main e) = take (e_write e rb).1 rb /\
                    p_stderr (main e) = match (e_write e rb).2 with None => "" | Some er => er +:+ nl end
        end
    end
  end.
Proof.
  unfold main, run. destruct (e_stdin e) as [bs|er]; [|reflexivity]. destruct (e_unmarshal e bs) as [r|er]; [|reflexivity].
  destruct C41_requested as (content & Hc). specialize (Hc r).
  destruct (Generate r) as [out| | |] eqn:E; cbn [rbind]; try contradiction.
  - right. exists out. split; [apply GenMisc.generate_ok, E|]. destruct (e_marshal e out) as [rb|er]; [|reflexivity].
    destruct (e_write e rb) as [n [er|]]; split; reflexivity.
  - left. split; [exact Hc|reflexivity].
Qed.

(** When everything succeeds. *)
Theorem C55_success e bs r out rb :
  e_stdin e = inl bs -> e_unmarshal e bs = inl r -> (forall f, f ∈ requested r -> ~ unsupported_file f) ->
  Forall2 (fun f p => generateFile f = Ok p) (requested r) out ->
  e_marshal e out = inl rb -> e_write e rb = (List.length rb, None) ->
  main e = mkProc rb "" 0.
Proof.
  intros H1 H2 H3 H4 H5 H6. pose proof (C55_output_partial e) as H. rewrite H1, H2 in H.
  destruct H as [[(f & Hf & Hu) _]|(out' & Ho & H)]; [destruct (H3 f Hf Hu)|].
  assert (out' = out) as ->.
  { clear -H4 Ho. revert out' Ho. induction H4 as [|f p fs out E _ IH]; intros out' Ho; inversion Ho as [|? p' ? out'' E' Ho']; subst; [reflexivity|].
    rewrite E in E'. injection E' as ->. f_equal. apply IH, Ho'. }
  rewrite H5, H6 in H. cbn [fst snd] in H. rewrite firstn_all in H. destruct H as [Ha Hb].
  assert (Hs : p_status (main e) = 0).
  { unfold main. destruct (run e) as [[o [er|]]| | |] eqn:E; try reflexivity; exfalso; revert E; unfold run; rewrite H1, H2;
      pose proof C41_requested as [c Hc]; specialize (Hc r); destruct (Generate r) as [o| | |]; cbn [rbind]; try contradiction;
      try (destruct Hc as (f & Hf & Hu); intros _; exact (H3 f Hf Hu));
      destruct (e_marshal e o) as [rb'|]; try discriminate; destruct (e_write e rb'); discriminate. }
  destruct (main e) as [a b c]. cbn in *. subst. reflexivity.
Qed.

(** A world in which all goes well, for the file of P_Gen.v, with a toy encoding of
    the response (the number of bytes of each file). *)
Definition demo_env : env :=
  mkEnv (inl [1; 2]) (fun _ => inl (mkReq ["demo.proto"] [Some demo_file]))
        (fun out => inl (map (fun p => Z.of_nat (String.length p.2)) out))
        (fun bs => (List.length bs, None)) (fun _ => ("", None)) "".
Example C55_case : p_status (main demo_env) = 0 /\ p_stderr (main demo_env) = "" /\ List.length (p_stdout (main demo_env)) = 1%nat.
Proof. vm_compute. split_and!; reflexivity. Qed.

(** Failures are not signalled to the caller: unless the generator panics the exit
    status is 0, and if the request cannot be read or parsed, standard output is
    empty, which is the encoding of a response without files and without error. *)
Theorem C55_failure_status_refuted :
  (forall e, p_status (main e) = 0 \/ p_status (main e) = 2 /\ exists bs r f, e_stdin e = inl bs /\ e_unmarshal e bs = inl r /\ f ∈ requested r /\ unsupported_file f) /\
  (forall e bs er, e_stdin e = inl bs -> e_unmarshal e bs = inr er -> p_status (main e) = 0 /\ p_stdout (main e) = []) /\
  (forall e, p_status (text_main e) = 0) /\
  exists e bs, e_stdin e = inl bs /\ e_unmarshal e bs = inr "bad request" /\ p_status (main e) = 0 /\ p_stdout (main e) = [].
Proof.
  split_and!.
  - intros e. unfold main, run. pose proof C41_requested as [c Hc].
    destruct (e_stdin e) as [bs|er] eqn:E1; [|left; reflexivity]. destruct (e_unmarshal e bs) as [r|er] eqn:E2; [|left; reflexivity].
    specialize (Hc r). destruct (Generate r) as [out| | |]; cbn [rbind] in *; try contradiction.
    + left. destruct (e_marshal e out) as [rb|]; [|reflexivity]. destruct (e_write e rb) as [n [er|]]; reflexivity.
    + right. split; [reflexivity|]. destruct Hc as (f & Hf). exists bs, r, f. done.
  - intros e bs er E1 E2. unfold main, run. rewrite E1, E2. split; reflexivity.
  - intros e. unfold text_main. destruct (e_stdin e) as [bs|]; [|reflexivity]. destruct (e_unmarshal e bs) as [r|]; [|reflexivity].
    destruct (e_text e r) as [s [er|]]; reflexivity.
  - exists (mkEnv (inl [1]) (fun _ => inr "bad request") (fun _ => inr "") (fun _ => (0%nat, None)) (fun _ => ("", None)) ""), [1]. split_and!; reflexivity.
Qed.

(** protoc-gen-text never writes to standard output; all that the text marshaller
    wrote appears on standard error, alone if nothing failed, otherwise followed
    by the error. *)
Theorem C55_text_command e :
  p_stdout (text_main e) = [] /\
  (forall er, e_stdin e = inr er -> p_stderr (text_main e) = er +:+ nl) /\
  (forall bs er, e_stdin e = inl bs -> e_unmarshal e bs = inr er -> p_stderr (text_main e) = er +:+ nl) /\
  (forall bs r, e_stdin e = inl bs -> e_unmarshal e bs = inl r ->
     exists rest, p_stderr (text_main e) = (e_text e r).1 +:+ rest /\
       match (e_text e r).2 with None => rest = "" | Some er => rest = er +:+ nl end).
Proof.
  unfold text_main. split_and!.
  - destruct (e_stdin e) as [bs|er]; [|reflexivity]. destruct (e_unmarshal e bs) as [r|er]; [|reflexivity].
    destruct (e_text e r) as [s [er|]]; reflexivity.
  - intros er ->. reflexivity.
  - intros bs er -> ->. reflexivity.
  - intros bs r -> ->. destruct (e_text e r) as [s [er|]].
    + exists (er +:+ nl). split; reflexivity.
    + exists "". split; [|reflexivity]. cbn. symmetry. apply TextFacts.sapp_nil.
Qed.
Example C55_text_case :
  p_stderr (text_main (mkEnv (inl [1]) (fun _ => inl (mkReq [] [])) (fun _ => inr "") (fun _ => (0%nat, None))
    (fun _ => ("file_to_generate: ", Some "short write")) "")) = "file_to_generate: short write" +:+ nl.
Proof. reflexivity. Qed.

Print Assumptions C55_text_command.
Print Assumptions C55_output_partial.
Print Assumptions C55_success.
Print Assumptions C55_failure_status_refuted.

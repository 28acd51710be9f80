(** * Model of the two commands (cmd/protoc-gen-zeropb/main.go,
    cmd/protoc-gen-text/main.go)

    The outside world is a parameter: what reading standard input gives, the
    protobuf library (proto.Unmarshal, proto.Marshal, proto.MarshalText of
    github.com/golang/protobuf), what the operating system does with a write. *)
From Verif Require Import Gen.

Definition err := string.   (* an error, by its %+v rendering *)

Record env := mkEnv {
  e_stdin : list Z + err;                          (* ioutil.ReadAll(os.Stdin) *)
  e_unmarshal : list Z -> request + err;           (* proto.Unmarshal *)
  e_marshal : list (string * string) -> list Z + err;  (* proto.Marshal of the response *)
  e_write : list Z -> nat * option err;            (* os.Stdout.Write: how many bytes got out *)
  e_text : request -> string * option err;         (* proto.MarshalText: what it wrote *)
  e_trace : string }.                              (* what the Go runtime prints on a panic *)

(** What another process sees. *)
Record proc := mkProc { p_stdout : list Z; p_stderr : string; p_status : Z }.

(** main.go:14-34 (protoc-gen-zeropb): what was written to standard output, and
    the error. *)
Definition run (e : env) : res (list Z * option err) :=
  match e_stdin e with
  | inr er => Ok ([], Some er)
  | inl reqBytes =>
    match e_unmarshal e reqBytes with
    | inr er => Ok ([], Some er)
    | inl req =>
      let* r := Generate req in
      match e_marshal e r with
      | inr er => Ok ([], Some er)
      | inl resBytes =>
        let '(n, er) := e_write e resBytes in
        Ok (take n resBytes, er)
      end
    end
  end.

(** main.go:36-40.  The process ends with status 0 when main returns, and with
    status 2 after a panic. *)
Definition main (e : env) : proc :=
  match run e with
  | Ok (out, None) => mkProc out "" 0
  | Ok (out, Some er) => mkProc out (er +:+ nl) 0
  | _ => mkProc [] (e_trace e) 2
  end.

(** protoc-gen-text/main.go:14-27, 29-33: only standard error is written. *)
Definition text_main (e : env) : proc :=
  match e_stdin e with
  | inr er => mkProc [] (er +:+ nl) 0
  | inl reqBytes =>
    match e_unmarshal e reqBytes with
    | inr er => mkProc [] (er +:+ nl) 0
    | inl req =>
      let '(s, er) := e_text e req in
      match er with None => mkProc [] s 0 | Some er => mkProc [] (s +:+ er +:+ nl) 0 end
    end
  end.

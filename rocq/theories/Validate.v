(** * The repository's own tests, run in the model

    Not proofs of properties: a check that the model computes what the code
    computes, on the inputs of /repo/zeropb_test.go (TestEncode, lines 15-89, and
    TestDecode, lines 107-167).  The golden output of the generator is compared in
    Golden.v. *)
From Verif Require Import Api.

(** golden/raftzeropb/raft.zeropb.go:7-16, type Entry: fields type = 1, term = 2,
    index = 3 and data = 4. *)
Definition Entry : mtype := mkMtype 5 [].

Inductive act :=
| SetIndex (x : Z) | SetTerm (x : Z) | SetData (x : list Z)
| Index (x : Z) | Term (x : Z) | Data (x : option (list Z)) | DataLen (n : Z)
| Verify.

Definition val_eqb (r : res pval) (v : pval) : bool :=
  match r, v with
  | Ok (VNum x), VNum y => x =? y
  | Ok (VBytes None), VBytes None => true
  | Ok (VBytes (Some x)), VBytes (Some y) => bool_decide (x = y)
  | _, _ => false
  end.

(** zeropb_test.go:169-187 *)
Definition verifyOffsetsInvariants (o : offsets) : bool :=
  forallb (fun i =>
    let a := default 0 (oa o !! i) in
    let present := match om o with Some m => bool_decide (is_Some (m !! Z.of_nat i)) | None => false end in
    Bool.eqb (a =? 65535) present) (seq 0 (length (oa o))).

Fixpoint test (m : msg) (l : list act) : bool :=
  match l with
  | [] => true
  | a :: l =>
    let set r := match r with Ok m => test m l | _ => false end in
    match a with
    | SetIndex x => set (m_set PUint64 m 3 (VNum x))
    | SetTerm x => set (m_set PUint64 m 2 (VNum x))
    | SetData x => set (m_set PBytes m 4 (VBytes (Some x)))
    | Index x => val_eqb (m_get PUint64 m 3) (VNum x) && test m l
    | Term x => val_eqb (m_get PUint64 m 2) (VNum x) && test m l
    | Data x => val_eqb (m_get PBytes m 4) (VBytes x) && test m l
    | DataLen n => match m_get PBytes m 4 with Ok (VBytes (Some x)) => zlen x =? n | _ => false end && test m l
    | Verify => verifyOffsetsInvariants (moff m) && test m l
    end
  end.

(** zeropb_test.go:15-89 *)
Example TestEncode :
  test (msg_zero Entry)
    [Index 0; Term 0; Data None; Verify;
     SetIndex 1; SetTerm 2; SetData [3; 4]; Index 1; Term 2; Data (Some [3; 4]); Verify;
     SetIndex 5; Index 5; SetData [7; 8]; Data (Some [7; 8]); Verify;
     SetData [9; 10; 11]; Data (Some [9; 10; 11]); SetIndex 1000000; Index 1000000; Verify;
     Index 1000000; Term 2; Data (Some [9; 10; 11]);
     SetData (replicate (Z.to_nat 65535) 0); Index 1000000; Term 2; DataLen 65535; Verify;
     SetTerm 2000000; Index 1000000; Term 2000000; DataLen 65535; Verify;
     SetIndex 101; Index 101; Term 2000000; DataLen 65535; Verify;
     SetData [12; 13; 14; 15]; Index 101; Term 2000000; Data (Some [12; 13; 14; 15]); Verify;
     SetTerm 102; Index 101; Term 102; Data (Some [12; 13; 14; 15]); Verify] = true.
Proof. vm_compute. reflexivity. Qed.

Definition uv (x : Z) : list Z := match put_uvarint 10 x with Ok b => b | _ => [] end.
Definition tag (f typ : Z) : list Z := uv (make_tag f typ).
Definition eof (buf : list Z) : bool :=
  match m_Decode Entry (msg_zero Entry) buf with Ok (Some ErrUnexpectedEOF, _) => true | _ => false end.

(** zeropb_test.go:107-167, in order. *)
Example TestDecode :
  map eof
    [removelast (uv 1000000);
     tag 1 WireVarint;
     tag 1 WireVarint ++ removelast (uv 1000000);
     tag 1 WireFixed32 ++ [0];
     tag 1 WireFixed64 ++ [0];
     tag 1 WireBytes;
     tag 1 WireBytes ++ removelast (uv 1000000);
     tag 1 WireBytes ++ uv 10 ++ [1; 2; 3]] = repeat true 8.
Proof. vm_compute. reflexivity. Qed.

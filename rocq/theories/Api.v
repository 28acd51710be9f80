(** * Histories of operations on a generated message *)
From Verif Require Export GenApi Spec.

(** A schema fits a generated message type: declared fields have a slot,
    exactly the repeated ones are in the table, and the array is not longer than
    protobuf's field number limit allows (field numbers are below 2^29). *)
Definition schema_ok (mt : mtype) (sc : schema) : Prop :=
  Z.of_nat (alen mt) <= 2 ^ 29 /\
  (forall f k, sc f = Some k -> 0 <= f < Z.of_nat (alen mt)) /\
  (forall f, sc f = Some KRepeated -> In f (reps mt)) /\
  (forall f T, sc f = Some (KSingle T) -> ~ In f (reps mt)).

(** One operation on the struct.  A Decode error counts as failure. *)
Definition step (mt : mtype) (sc : schema) (m : msg) (o : op) : res msg :=
  match o with
  | OSet f v => match sc f with Some (KSingle T) => m_set T m f v | _ => Panic end
  | OAppend f x => m_append m f x
  | OReset => m_Reset m []
  | ODecode _ bs =>
    let* (err, m) := m_Decode mt m bs in
    match err with None => Ok m | Some _ => Panic end
  end.

Fixpoint run (mt : mtype) (sc : schema) (m : msg) (os : list op) : res msg :=
  match os with
  | [] => Ok m
  | o :: os => let* m := step mt sc m o in run mt sc m os
  end.

(** [m] is what the history [os] of legal operations leaves in a fresh struct. *)
Definition history (mt : mtype) (sc : schema) (os : list op) (m : msg) : Prop :=
  Forall (op_ok (Z.of_nat (alen mt)) sc) os /\ run mt sc (msg_zero mt) os = Ok m.

(** The client loop over a repeated field, with at most [n] calls of Next. *)
Definition m_iterate (n : nat) (mt' : mtype) (m : msg) (f : Z) (x : msg)
  : res (list (option error * msg)) :=
  let* it := m_Iter m f in iterate n mt' it f x.

(** The accessors of field [f] answer the same on [m1] and [m2]: the getter, the
    sub-message accessor into any struct, the iteration. *)
Definition same_at (sc : schema) (m1 m2 : msg) (f : Z) : Prop :=
  match sc f with
  | Some (KSingle T) =>
      m_get T m1 f = m_get T m2 f /\
      (T = PBytes -> forall mt' x, m_Message mt' m1 f x = m_Message mt' m2 f x)
  | Some KRepeated => forall n mt' x, m_iterate n mt' m1 f x = m_iterate n mt' m2 f x
  | None => True
  end.
Definition same_answers (sc : schema) (m1 m2 : msg) : Prop := forall f, same_at sc m1 m2 f.

(** The struct has the array of its type; nothing is assumed of its contents. *)
Definition of_type (mt : mtype) (m : msg) : Prop := length (oa (moff m)) = alen mt.

(** ** Arbitrary clients: any sequence of method calls, legal or not *)
Inductive call :=
| CGet (T : ptype) (f : Z)
| CSet (T : ptype) (f : Z) (v : pval)
| CAppend (f : Z) (x : list Z)
| CMessage (mt' : mtype) (f : Z) (x : msg)
| CIterate (n : nat) (mt' : mtype) (f : Z) (x : msg)
| CEncode
| CDecode (buf : list Z)
| CReset (buf : list Z).

(** What the client sees of one call. *)
Inductive answer :=
| AUnit
| AVal (v : pval)
| AMessage (ok : bool) (err : option error) (x : msg)
| AList (l : list (option error * msg))
| ABytes (bs : list Z)
| AError (err : option error).

Definition exec (mt : mtype) (m : msg) (c : call) : res (answer * msg) :=
  match c with
  | CGet T f => let* v := m_get T m f in Ok (AVal v, m)
  | CSet T f v => let* m' := m_set T m f v in Ok (AUnit, m')
  | CAppend f x => let* m' := m_append m f x in Ok (AUnit, m')
  | CMessage mt' f x => let* (ok, err, y) := m_Message mt' m f x in Ok (AMessage ok err y, m)
  | CIterate n mt' f x => let* l := m_iterate n mt' m f x in Ok (AList l, m)
  | CEncode => Ok (ABytes (m_Encode m), m)
  | CDecode buf => let* (err, m') := m_Decode mt m buf in Ok (AError err, m')
  | CReset buf => let* m' := m_Reset m buf in Ok (AUnit, m')
  end.

(** The answers of a sequence of calls and how it ended: normally or with the
    given abnormal outcome. *)
Fixpoint trace (mt : mtype) (m : msg) (cs : list call) : list answer * res unit :=
  match cs with
  | [] => ([], Ok tt)
  | c :: cs =>
    match exec mt m c with
    | Ok (a, m') => let '(l, r) := trace mt m' cs in (a :: l, r)
    | Panic => ([], Panic)
    | PastLen => ([], PastLen)
    | OutOfFuel => ([], OutOfFuel)
    end
  end.

(** [k] calls of Next, whatever they return: what the client sees of each. *)
Fixpoint next_calls (k : nat) (mt' : mtype) (it : option (list Z)) (f : Z) (x : msg)
  : res (list (bool * option error * msg)) :=
  match k with
  | O => Ok []
  | S k =>
    let* (it, ok, err, x) := it_Next mt' it f x in
    let* l := next_calls k mt' it f x in Ok ((ok, err, x) :: l)
  end.

(** A sequence of operations on an [Offsets]. *)
Fixpoint off_run (o : offsets) (ops : list off_op) : res offsets :=
  match ops with
  | [] => Ok o
  | OffSet f x :: ops => let* o := offsets_set o f x in off_run o ops
  | OffClear :: ops => off_run (offsets_clear o) ops
  end.

(** What [k] calls of Next should show for the payloads [ps]: each call decodes
    the next payload, if any. *)
Fixpoint decode_calls (k : nat) (mt' : mtype) (x : msg) (ps : list (list Z))
  : res (list (bool * option error * msg)) :=
  match k with
  | O => Ok []
  | S k =>
    match ps with
    | [] => let* l := decode_calls k mt' x [] in Ok ((false, None, x) :: l)
    | p :: ps =>
      let* (err, y) := m_Decode mt' x p in
      let* l := decode_calls k mt' y ps in Ok ((true, err, y) :: l)
    end
  end.

(** [p] is a message that fits the type [mt']: well-formed, with field numbers in
    range. *)
Definition accepted (mt' : mtype) (p : list Z) : Prop :=
  exists rs, wire rs p /\ Forall (fun r => r.1 < Z.of_nat (alen mt')) rs.

(** What a call of Next shows: [None] at the end, otherwise the error and the
    bytes of the element. *)
Definition seen (r : bool * option error * msg) : option (option error * list Z) :=
  let '(ok, err, y) := r in if (ok : bool) then Some (err, m_Encode y) else None.

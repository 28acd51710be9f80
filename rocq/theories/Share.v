(** * Clients of the runtime over shared memory

    The actions of SpecShare.v executed by the model of the code (Heap.v).  The
    client's own actions (a zero struct, a copy of a struct, slices of its own,
    index assignment, append, slice expressions) are Go's. *)
From Verif Require Export Heap HeapApi.
From Verif Require Import SpecShare.

Record pst := mkPst { p_mem : mem; p_objs : list (mtype * hmsg); p_held : list (option slice) }.
(** The start, with any allocator. *)
Definition p_empty (al : allocator) : pst := mkPst (mkMemory ∅ ∅ al) [] [].

(** Go spec, "Index expressions" and "Assignments": [s[j] = b] *)
Definition h_write (σ : mem) (s : option slice) (j b : Z) : res mem :=
  match s with
  | None => Panic
  | Some s => if (0 <=? j) && (j <? slen s) then Ok (write σ (sarr s) (soff s + j) [b]) else Panic
  end.

Definition keep (P : pst) (σ : mem) (s : option slice) : pst := mkPst σ (p_objs P) (p_held P ++ [s]).

(** One action.  [ANew]: the zero value of a generated struct
    (golden/testzeropb/test.zeropb.go:7-13).  [ASet] .. [AReset]: the generated
    methods (test.zeropb.go:35-260), which hand the struct's buffer and offsets to
    the runtime.  [AIter], [ANext]: zeropb.go:411-417, 472-491; the sub-message and
    iterator methods (test.zeropb.go:184-207) are [AGet] or [ANext] followed by
    [ADecode]. *)
Definition pexec (grow : policy) (P : pst) (a : act) : res (seen * pst) :=
  let σ := p_mem P in
  match a with
  | ANew n reps => Ok (SawNothing, mkPst σ (p_objs P ++ [(mkMtype n reps, mkH None (replicate n 0) None)]) (p_held P))
  | ACopy i => let* x := of_opt (p_objs P !! i) in Ok (SawNothing, mkPst σ (p_objs P ++ [x]) (p_held P))
  | AMake bs spare => let '(σ, s) := alloc σ bs spare in Ok (SawSlice (Some s), keep P σ (Some s))
  | AWrite k j b =>
    let* s := of_opt (p_held P !! k) in
    let* σ := h_write σ s j b in Ok (SawNothing, mkPst σ (p_objs P) (p_held P))
  | AExtend k x =>
    let* s := of_opt (p_held P !! k) in
    let '(σ, s) := h_append grow σ s x in Ok (SawSlice s, keep P σ s)
  | ACut k lo hi =>
    let* s := of_opt (p_held P !! k) in
    let* s := h_range s lo hi in Ok (SawSlice s, keep P σ s)
  | ALook k => let* s := of_opt (p_held P !! k) in Ok (SawBytes (sbytes σ s), P)
  | ASet i f T v =>
    let* (mt, h) := of_opt (p_objs P !! i) in
    let* (σ, h) := h_set grow T σ h f v in Ok (SawNothing, mkPst σ (<[i := (mt, h)]> (p_objs P)) (p_held P))
  | ASetSlice i f k =>
    let* (mt, h) := of_opt (p_objs P !! i) in
    let* s := of_opt (p_held P !! k) in
    let* (σ, h) := h_set_view grow σ h f s in Ok (SawNothing, mkPst σ (<[i := (mt, h)]> (p_objs P)) (p_held P))
  | AAppend i f k =>
    let* (mt, h) := of_opt (p_objs P !! i) in
    let* s := of_opt (p_held P !! k) in
    let* (σ, h) := h_append_bytes grow σ h f (View s) in Ok (SawNothing, mkPst σ (<[i := (mt, h)]> (p_objs P)) (p_held P))
  | AGet i f T =>
    let* (mt, h) := of_opt (p_objs P !! i) in
    let* v := h_get T σ h f in
    match v with
    | HVal v => Ok (SawValue v, P)
    | HStr s => let s := option_map (fun s => mkSl (sarr s) (soff s) (slen s) (slen s)) s in Ok (SawSlice s, keep P σ s)
    | HBy s => Ok (SawSlice s, keep P σ s)
    end
  | AEncode i => let* (mt, h) := of_opt (p_objs P !! i) in Ok (SawSlice (h_buf h), keep P σ (h_buf h))
  | ADecode i k =>
    let* (mt, h) := of_opt (p_objs P !! i) in
    let* s := of_opt (p_held P !! k) in
    let* (err, σ, h) := h_decode mt σ h s in
    Ok (SawError (match err with Some _ => true | None => false end), mkPst σ (<[i := (mt, h)]> (p_objs P)) (p_held P))
  | AReset i k =>
    let* (mt, h) := of_opt (p_objs P !! i) in
    let* s := of_opt (p_held P !! k) in
    let* (σ, h) := h_reset σ h s in Ok (SawNothing, mkPst σ (<[i := (mt, h)]> (p_objs P)) (p_held P))
  | AIter i f =>
    let* (mt, h) := of_opt (p_objs P !! i) in
    let* s := h_iter σ h f in Ok (SawSlice s, keep P σ s)
  | ANext k f =>
    let* s := of_opt (p_held P !! k) in
    let* (rest, msg) := h_find σ s f in
    Ok (SawSlice msg, mkPst σ (p_objs P) (<[k := rest]> (p_held P) ++ [msg]))
  end.

(** A program: what the client sees, and how it ends. *)
Fixpoint prun (grow : policy) (P : pst) (acts : list act) : list seen * res pst :=
  match acts with
  | [] => ([], Ok P)
  | a :: acts =>
    match pexec grow P a with
    | Ok (o, P) => let '(l, r) := prun grow P acts in (o :: l, r)
    | Panic => ([], Panic)
    | PastLen => ([], PastLen)
    | OutOfFuel => ([], OutOfFuel)
    end
  end.

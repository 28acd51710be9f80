(** * Clients of several structs in one memory *)
From Verif Require Export Heap.

(** ** Calls in memory

    The same calls as in Api.v, executed in memory.  [spare] is the spare capacity
    of the buffers a client passes in. *)

(** A struct with contents [x] in memory of its own. *)
Definition h_put (spare : list Z -> nat) (σ : mem) (x : msg) : mem * hmsg :=
  let '(σ, s) := alloc σ (mbuf x) (spare (mbuf x)) in
  match om (moff x) with
  | None => (σ, mkH (Some s) (oa (moff x)) None)
  | Some m =>
    let l := pick (pick_map (chooser σ)) (dom (maps σ)) in
    (mkMemory (arrs σ) (<[l := m]> (maps σ)) (chooser σ), mkH (Some s) (oa (moff x)) (Some l))
  end.

(** The client loop over an iterator, as [iterate] (GenApi.v): the receiving
    struct [x] is looked at after every call. *)
Fixpoint h_iterate (n : nat) (mt' : mtype) (σ : mem) (it : option slice) (f : Z) (x : hmsg)
  : res (list (option error * msg) * mem) :=
  match n with
  | O => OutOfFuel
  | S n =>
    let* (it, ok, err, σ, x) := h_next mt' σ it f x in
    if (ok : bool) then
      let* (l, σ') := h_iterate n mt' σ it f x in Ok ((err, abs σ x) :: l, σ')
    else Ok ([], σ)
  end.

Definition hexec (grow : policy) (spare : list Z -> nat) (mt : mtype) (σ : mem) (h : hmsg) (c : call)
  : res (answer * mem * hmsg) :=
  match c with
  | CGet T f => let* v := h_get T σ h f in Ok (AVal (hval_of σ v), σ, h)
  | CSet T f v => let* (σ, h) := h_set grow T σ h f v in Ok (AUnit, σ, h)
  | CAppend f x => let* (σ, h) := h_append_bytes grow σ h f (Scratch x) in Ok (AUnit, σ, h)
  | CMessage mt' f x =>
    let '(σ, y) := h_put spare σ x in
    let* (ok, err, σ, y) := h_message mt' σ h f y in Ok (AMessage ok err (abs σ y), σ, h)
  | CIterate n mt' f x =>
    let '(σ, y) := h_put spare σ x in
    let* it := h_iter σ h f in
    let* (l, σ) := h_iterate n mt' σ it f y in Ok (AList l, σ, h)
  | CEncode => Ok (ABytes (sbytes σ (h_buf h)), σ, h)
  | CDecode buf =>
    let '(σ, s) := alloc σ buf (spare buf) in
    let* (err, σ, h) := h_decode mt σ h (Some s) in Ok (AError err, σ, h)
  | CReset buf =>
    let '(σ, s) := alloc σ buf (spare buf) in
    let* (σ, h) := h_reset σ h (Some s) in Ok (AUnit, σ, h)
  end.

(** A schedule of calls on a list of structs: what the clients see, tagged with
    the struct, and how the run ended. *)
Fixpoint hrun (grow : policy) (spare : list Z -> nat) (mts : list mtype) (σ : mem) (hs : list hmsg)
    (sch : list (nat * call)) : list (nat * answer) * res (mem * list hmsg) :=
  match sch with
  | [] => ([], Ok (σ, hs))
  | (i, c) :: sch =>
    match mts !! i, hs !! i with
    | Some mt, Some h =>
      match hexec grow spare mt σ h c with
      | Ok (a, σ, h) => let '(l, r) := hrun grow spare mts σ (<[i := h]> hs) sch in ((i, a) :: l, r)
      | Panic => ([], Panic)
      | PastLen => ([], PastLen)
      | OutOfFuel => ([], OutOfFuel)
      end
    | _, _ => ([], Panic)
    end
  end.

(** The calls of a schedule on struct [i], the answers for struct [i]. *)
Definition of_thread {A} (i : nat) (l : list (nat * A)) : list A :=
  map snd (filter (fun p => p.1 = i) l).

(** The structs are pairwise separate. *)
Definition all_separate (hs : list hmsg) : Prop :=
  forall i j h1 h2, i <> j -> hs !! i = Some h1 -> hs !! j = Some h2 -> separate h1 h2.

(** ** Readers

    Clients that only read: any number of threads, each with its own structs and
    iterators, over buffers that may be shared in any way. *)
Record reader := mkReader { r_structs : list hmsg; r_iters : list (option slice) }.

Inductive rcall :=
| RGet (x : nat) (T : ptype) (f : Z)
| REncode (x : nat)
| RDecode (x : nat) (mt : mtype) (s : option slice)
| RMessage (x : nat) (f : Z) (y : nat) (mt' : mtype)
| RIter (x : nat) (f : Z) (k : nat)
| RNext (k : nat) (f : Z) (y : nat) (mt' : mtype).

(** What the client gets: slices are seen as such (identity of memory). *)
Inductive ranswer :=
| RVal (v : hval)
| RSlice (s : option slice)
| RErr (e : option error)
| ROk (ok : bool) (e : option error)
| RUnit.

Definition of_opt {A} (o : option A) : res A := match o with Some a => Ok a | None => Panic end.

Definition rexec (σ : mem) (t : reader) (c : rcall) : res (ranswer * mem * reader) :=
  match c with
  | RGet x T f =>
    let* h := of_opt (r_structs t !! x) in
    let* v := h_get T σ h f in Ok (RVal v, σ, t)
  | REncode x =>
    let* h := of_opt (r_structs t !! x) in Ok (RSlice (h_buf h), σ, t)
  | RDecode x mt s =>
    let* h := of_opt (r_structs t !! x) in
    let* (err, σ, h) := h_decode mt σ h s in
    Ok (RErr err, σ, mkReader (<[x := h]> (r_structs t)) (r_iters t))
  | RMessage x f y mt' =>
    let* h := of_opt (r_structs t !! x) in
    let* hy := of_opt (r_structs t !! y) in
    let* (ok, err, σ, hy) := h_message mt' σ h f hy in
    Ok (ROk ok err, σ, mkReader (<[y := hy]> (r_structs t)) (r_iters t))
  | RIter x f k =>
    let* h := of_opt (r_structs t !! x) in
    let* it := h_iter σ h f in
    Ok (RUnit, σ, mkReader (r_structs t) (<[k := it]> (r_iters t)))
  | RNext k f y mt' =>
    let* it := of_opt (r_iters t !! k) in
    let* hy := of_opt (r_structs t !! y) in
    let* (it, ok, err, σ, hy) := h_next mt' σ it f hy in
    Ok (ROk ok err, σ, mkReader (<[y := hy]> (r_structs t)) (<[k := it]> (r_iters t)))
  end.

(** One reader alone. *)
Fixpoint rtrace (σ : mem) (t : reader) (cs : list rcall) : list ranswer * res mem :=
  match cs with
  | [] => ([], Ok σ)
  | c :: cs =>
    match rexec σ t c with
    | Ok (a, σ, t) => let '(l, r) := rtrace σ t cs in (a :: l, r)
    | Panic => ([], Panic)
    | PastLen => ([], PastLen)
    | OutOfFuel => ([], OutOfFuel)
    end
  end.

(** Readers interleaved by a schedule. *)
Fixpoint rrun (σ : mem) (ts : list reader) (sch : list (nat * rcall)) : list (nat * ranswer) * res mem :=
  match sch with
  | [] => ([], Ok σ)
  | (i, c) :: sch =>
    match ts !! i with
    | Some t =>
      match rexec σ t c with
      | Ok (a, σ, t) => let '(l, r) := rrun σ (<[i := t]> ts) sch in ((i, a) :: l, r)
      | Panic => ([], Panic)
      | PastLen => ([], PastLen)
      | OutOfFuel => ([], OutOfFuel)
      end
    | None => ([], Panic)
    end
  end.

(** No two structs, of the same or of different readers, share a map; maps exist. *)
Definition own_maps (σ : mem) (ts : list reader) : Prop :=
  (forall i t x h l, ts !! i = Some t -> r_structs t !! x = Some h -> h_m h = Some l -> is_Some (maps σ !! l)) /\
  (forall i j t1 t2 x y h1 h2 l, ts !! i = Some t1 -> ts !! j = Some t2 ->
     r_structs t1 !! x = Some h1 -> r_structs t2 !! y = Some h2 ->
     h_m h1 = Some l -> h_m h2 = Some l -> i = j /\ x = y).

(** ** Windows

    What a client sees of zero-copy results: array, offset and length of the
    slice. *)
Definition window_at (buf : slice) (d : slice) (p : Z * list Z) : Prop :=
  sarr d = sarr buf /\ soff d = soff buf + p.1 /\ slen d = zlen p.2.

(** [k] calls of FindNextField on the same iterator, as Next does it
    (zeropb.go:472-491): the slices returned. *)
Fixpoint h_finds (k : nat) (σ : mem) (it : option slice) (f : Z) : res (list (option slice)) :=
  match k with
  | O => Ok []
  | S k => let* (it, w) := h_find σ it f in let* l := h_finds k σ it f in Ok (w :: l)
  end.

(** The result of a bytes-like accessor is the payload [p] of the message of [h],
    in place; [None] for an unset field. *)
Definition is_view (σ : mem) (h : hmsg) (p : option (Z * list Z)) (d : option slice) : Prop :=
  match p, d with
  | None, None => True
  | Some p, Some d => exists s, h_buf h = Some s /\ window_at s d p /\ sbytes σ (Some d) = p.2
  | _, _ => False
  end.

(** ** Sequences of mutations of one struct, with arbitrary arguments *)
Inductive hmut :=
| MSet (T : ptype) (f : Z) (v : pval)
| MSetView (f : Z) (s : option slice)
| MAppend (f : Z) (v : src).
Definition h_mut (grow : policy) (σ : mem) (h : hmsg) (m : hmut) : res (mem * hmsg) :=
  match m with
  | MSet T f v => h_set grow T σ h f v
  | MSetView f s => h_set_view grow σ h f s
  | MAppend f v => h_append_bytes grow σ h f v
  end.
Fixpoint h_muts (grow : policy) (σ : mem) (h : hmsg) (ms : list hmut) : res (mem * hmsg) :=
  match ms with
  | [] => Ok (σ, h)
  | m :: ms => let* (σ, h) := h_mut grow σ h m in h_muts grow σ h ms
  end.

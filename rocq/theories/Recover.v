(** * Clients over shared memory that recover from panics

    The functions of Heap.v return nothing but the outcome when they panic.  This
    file models those that write once more, statement by statement, over a memory
    and a struct that survive a panic (as PanicState.v does for byte strings), and
    the clients of Share.v recovering from every panic.  RecoverFacts.v proves that
    the functions agree with Heap.v where they return. *)
From Verif Require Export Share.
From Verif Require PanicState.
From Verif Require Import SpecShare.

(** A statement that may panic, in the memory and struct [s]. *)
Definition attempt {A} (s : mem * hmsg) (r : res A) (k : A -> res unit * (mem * hmsg)) : res unit * (mem * hmsg) :=
  match r with Ok a => k a | Panic => (Panic, s) | PastLen => (PastLen, s) | OutOfFuel => (OutOfFuel, s) end.

(** zeropb.go:382-388, the end of setSingle. *)
Definition r_set_new (grow : policy) (σ : mem) (h : hmsg) (fieldID : Z) (tagBytes valLen : list Z) (v : src)
  : res unit * (mem * hmsg) :=
  let '(σ, b) := h_append grow σ (h_buf h) tagBytes in
  let h := put_buf h b in
  attempt (σ, h) (offsets_set (hoffs σ h) fieldID (u64 (hlen b))) (fun o =>
  let '(σ, h) := put_offs σ h o in
  let '(σ, b) := h_append grow σ b valLen in
  let '(σ, b) := h_append grow σ b (src_bytes σ v) in
  (Ok tt, (σ, put_buf h b))).

(** zeropb.go:326-389, setSingle.  The loop over the map (375-381) is that of
    PanicState.v. *)
Definition r_setSingle (grow : policy) (σ : mem) (h : hmsg) (fieldID typ : Z) (valLen : list Z) (v : src)
  : res unit * (mem * hmsg) :=
  let tag := make_tag fieldID typ in
  attempt (σ, h) (put_uvarint MaxVarintLen64 tag) (fun tagBytes =>
  let tagLen := zlen tagBytes in
  let buf := h_buf h in
  attempt (σ, h) (offsets_get (hoffs σ h) fieldID) (fun g =>
  let offset := g.1 in
  if g.2 then
    attempt (σ, h) (old_len (sbytes σ buf) offset typ) (fun oldLen =>
    if oldLen =? zlen valLen + src_len v then
      attempt (σ, h) (h_copy σ buf offset valLen) (fun r =>
      let σ := r.1 in
      let offset := u64 (offset + u64 r.2) in
      attempt (σ, h) (h_copy σ buf offset (src_bytes σ v)) (fun r => (Ok tt, (r.1, h))))
    else
      let fieldBegin := u64 (offset - u64 tagLen) in
      let fieldEnd := u64 (offset + u64 oldLen) in
      attempt (σ, h) (h_from buf fieldEnd) (fun s =>
      attempt (σ, h) (h_copy σ buf fieldBegin (sbytes σ s)) (fun r =>
      let σ := r.1 in
      let removedBytes := u64 (fieldEnd - fieldBegin) in
      attempt (σ, h) (h_range buf 0 (u64 (hlen buf - removedBytes))) (fun buf =>
      let h := put_buf h buf in
      let o := hoffs σ h in
      let o := mkOffsets (adjust_array (oa o) fieldEnd removedBytes) (om o) in
      let '(r, (_, o)) := PanicState.p_adjust_map_keys (map_keys o) fieldEnd removedBytes ([], o) in
      let '(σ, h) := put_offs σ h o in
      attempt (σ, h) r (fun _ => r_set_new grow σ h fieldID tagBytes valLen v)))))
  else r_set_new grow σ h fieldID tagBytes valLen v)).

(** zeropb.go:391-405, appendSingle *)
Definition r_appendSingle (grow : policy) (σ : mem) (h : hmsg) (fieldID typ : Z) (valLen : list Z) (v : src)
  : res unit * (mem * hmsg) :=
  let tag := make_tag fieldID typ in
  attempt (σ, h) (put_uvarint MaxVarintLen64 tag) (fun tagBytes =>
  let '(σ, b) := h_append grow σ (h_buf h) tagBytes in
  let h := put_buf h b in
  attempt (σ, h) (offsets_get (hoffs σ h) fieldID) (fun g =>
  attempt (σ, h) (if g.2 then Ok (hoffs σ h) else offsets_set (hoffs σ h) fieldID (u64 (hlen b))) (fun o =>
  let '(σ, h) := put_offs σ h o in
  let '(σ, b) := h_append grow σ b valLen in
  let '(σ, b) := h_append grow σ b (src_bytes σ v) in
  (Ok tt, (σ, put_buf h b))))).

(** zeropb.go:173-315 *)
Definition r_set (grow : policy) (T : ptype) (σ : mem) (h : hmsg) (f : Z) (v : pval) : res unit * (mem * hmsg) :=
  attempt (σ, h) (set_args T v) (fun '(typ, valLen, val) => r_setSingle grow σ h f typ valLen (Scratch val)).
(** zeropb.go:295-315, test.zeropb.go:192-195 *)
Definition r_set_view (grow : policy) (σ : mem) (h : hmsg) (f : Z) (s : option slice) : res unit * (mem * hmsg) :=
  attempt (σ, h) (put_uvarint MaxVarintLen64 (u64 (hlen s))) (fun valLen => r_setSingle grow σ h f WireBytes valLen (View s)).
(** zeropb.go:319-324 *)
Definition r_append_bytes (grow : policy) (σ : mem) (h : hmsg) (f : Z) (v : src) : res unit * (mem * hmsg) :=
  attempt (σ, h) (put_uvarint MaxVarintLen64 (u64 (src_len v))) (fun valLen => r_appendSingle grow σ h f WireBytes valLen v).

(** test.zeropb.go:39-42, zeropb.go:421-467: the buffer is stored, then the loop of
    Decode (PanicState.v) writes the offsets. *)
Definition r_decode (mt : mtype) (σ : mem) (h : hmsg) (s : option slice) : res (option error) * (mem * hmsg) :=
  let '(r, (_, o)) := PanicState.p_Decode mt (sbytes σ s) ([], hoffs σ h) in
  (r, put_offs σ (put_buf h s) o).

(** One action of a client (Share.v, [pexec]), and what it leaves behind. *)
Definition rexec (grow : policy) (P : pst) (a : act) : res seen * pst :=
  let σ := p_mem P in
  let wrote i mt (x : res unit * (mem * hmsg)) :=
    (let* _ := x.1 in Ok SawNothing, mkPst x.2.1 (<[i := (mt, x.2.2)]> (p_objs P)) (p_held P)) in
  match a with
  | ASet i f T v =>
    match p_objs P !! i with None => (Panic, P) | Some (mt, h) => wrote i mt (r_set grow T σ h f v) end
  | ASetSlice i f k =>
    match p_objs P !! i, p_held P !! k with Some (mt, h), Some s => wrote i mt (r_set_view grow σ h f s) | _, _ => (Panic, P) end
  | AAppend i f k =>
    match p_objs P !! i, p_held P !! k with Some (mt, h), Some s => wrote i mt (r_append_bytes grow σ h f (View s)) | _, _ => (Panic, P) end
  | ADecode i k =>
    match p_objs P !! i, p_held P !! k with
    | Some (mt, h), Some s =>
      let x := r_decode mt σ h s in
      (let* err := x.1 in Ok (SawError (match err with Some _ => true | None => false end)),
       mkPst x.2.1 (<[i := (mt, x.2.2)]> (p_objs P)) (p_held P))
    | _, _ => (Panic, P)
    end
  | _ =>
    (* the remaining actions write after everything that may panic, or not at all *)
    match pexec grow P a with
    | Ok (o, P') => (Ok o, P') | Panic => (Panic, P) | PastLen => (PastLen, P) | OutOfFuel => (OutOfFuel, P)
    end
  end.

(** A program recovering from every panic ([None]). *)
Fixpoint rrun (grow : policy) (P : pst) (acts : list act) : list (option seen) * res pst :=
  match acts with
  | [] => ([], Ok P)
  | a :: acts =>
    match rexec grow P a with
    | (Ok o, P) => let '(l, r) := rrun grow P acts in (Some o :: l, r)
    | (Panic, P) => let '(l, r) := rrun grow P acts in (None :: l, r)
    | (PastLen, _) => ([], PastLen)
    | (OutOfFuel, _) => ([], OutOfFuel)
    end
  end.

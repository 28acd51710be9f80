(** * What goroutines may do with messages and byte slices they share

    A statement a caller can check: for every goroutine, which of the structs and
    slices it is given it uses, and which it writes to ([rights]); whose memory that
    is ([grants]); and a rule that can be read off its program ([follows]). *)
From Verif Require Import GoBase Heap SpecShare.
From Verif Require Import Access AccessApi.

(** ** Rights *)

(** By the numbers of its variables: the structs and slices among those it is given
    that it may use ([use_struct], [use_slice]); the structs whose fields it may assign
    to ([put_struct]: the generated struct itself and its overflow map), whose buffers
    it may write to ([put_buffer]: up to their capacity), the slices it may write to
    ([put_slice], likewise); whether it may write to slices it gets from calls
    ([put_new]). *)
Record rights := mkRights {
  use_struct : nat -> Prop; use_slice : nat -> Prop;
  put_struct : nat -> Prop; put_buffer : nat -> Prop; put_slice : nat -> Prop; put_new : Prop }.

(** ** The rule *)

(** The goroutine is given [n] structs and [m] slices; the numbers from [n] and [m] on
    are variables it makes itself. *)
Section rule.
Context (n m : nat) (rt : rights).
Definition uses i := use_struct rt i \/ (n <= i)%nat.
Definition sees k := use_slice rt k \/ (m <= k)%nat.
Definition writes k := ((k < m)%nat /\ put_slice rt k) \/ ((m <= k)%nat /\ put_new rt).
Definition follows (a : act) : Prop :=
  match a with
  | ANew _ _ | AMake _ _ => True
  (* a copy shares the buffer and the map *)
  | ACopy i => uses i /\ forall j, (n <= j)%nat -> (put_struct rt j -> put_struct rt i) /\ (put_buffer rt j -> put_buffer rt i)
  (* slices got from a message are parts of its buffer *)
  | AGet i _ _ | AEncode i | AIter i _ => uses i /\ (put_new rt -> put_buffer rt i)
  | ALook k => sees k
  | ACut k _ _ | ANext k _ => sees k /\ (put_new rt -> writes k)
  | AWrite k _ _ | AExtend k _ => sees k /\ writes k
  | ASet i _ _ _ => uses i /\ put_struct rt i /\ put_buffer rt i
  | ASetSlice i _ k | AAppend i _ k => uses i /\ sees k /\ put_struct rt i /\ put_buffer rt i
  (* Decode and Reset take over the slice as buffer, and write nothing to it *)
  | ADecode i k | AReset i k => uses i /\ sees k /\ put_struct rt i /\ (put_buffer rt i -> writes k)
  end.
End rule.

(** ** Whose memory *)

(** Who may write to a location: one of the goroutines, or nobody ([None]). *)
Notation owners := (loc -> option nat).
Definition may_read (owner : owners) (i : nat) (l : loc) : Prop := owner l = None \/ owner l = Some i.

(** In memory [G] with variables [R], goroutine [i] may read all that belongs to what it
    uses, and owns all that it may write to. *)
Definition grants (owner : owners) (i : nat) (R : regs) (G : heap) (rt : rights) : Prop :=
  (forall j mt o, use_struct rt j -> objs R !! j = Some (mt, o) ->
     (forall l, part_of l = Some o -> may_read owner i l /\ (put_struct rt j -> owner l = Some i)) /\
     (forall t, G !! Ref o = Some (Ptr (Some t)) -> may_read owner i (Table t) /\ (put_struct rt j -> owner (Table t) = Some i)) /\
     (forall s a b, G !! Buf o = Some (Hdr s) -> in_window s a b -> may_read owner i (Byte a b) /\ (put_buffer rt j -> owner (Byte a b) = Some i))) /\
  (forall k s a b, use_slice rt k -> held R !! k = Some s -> in_window s a b ->
     may_read owner i (Byte a b) /\ (put_slice rt k -> owner (Byte a b) = Some i)).

(** A goroutine: its rights and its program. *)
Record task := mkTask { may : rights; todo : list act }.

(** ** What a goroutine leaves behind *)

(** The memory [G] holds the bytes [bs] where [s] points. *)
Definition bytes_at (G : heap) (s : option slice) (bs : list Z) : Prop :=
  match s with
  | None => bs = []
  | Some s => zlen bs = slen s /\ forall j z, bs !! j = Some z -> G !! Byte (sarr s) (soff s + Z.of_nat j) = Some (Num z)
  end.
(** The struct number [o] is the struct [h] of Heap.v's memory [σ]. *)
Definition struct_at (G : heap) (σ : mem) (o : nat) (h : hmsg) : Prop :=
  G !! Buf o = Some (Hdr (h_buf h)) /\ bytes_at G (h_buf h) (sbytes σ (h_buf h)) /\
  G !! Ref o = Some (Ptr (h_m h)) /\ (forall t, h_m h = Some t -> exists m, maps σ !! t = Some m /\ G !! Table t = Some (Tbl m)) /\
  forall i x, h_a h !! i = Some x -> G !! Off o i = Some (Num x).
(** The memory and variables of a goroutine with rights [rt] that was given [R] are what
    the state [P] of Share.v says, as far as it may look. *)
Definition agrees (rt : rights) (R : regs) (G : heap) (R' : regs) (P : pst) : Prop :=
  held R' = p_held P /\
  (forall k s, sees (length (held R)) rt k -> held R' !! k = Some s -> bytes_at G s (sbytes (p_mem P) s)) /\
  length (objs R') = length (p_objs P) /\
  (forall i mt o, uses (length (objs R)) rt i -> objs R' !! i = Some (mt, o) -> exists h, p_objs P !! i = Some (mt, h) /\ struct_at G (p_mem P) o h).

(** ** Reading what others read too *)

(** Of the [n] structs and the slices there were at the start none is written to.  Of
    its own structs, those in [view] are for Decode and Reset of any slice, those not in
    [view] for setters and appends. *)
Definition only_reads (n : nat) (view : nat -> Prop) (a : act) : Prop :=
  match a with
  | ANew _ _ | AMake _ _ | AGet _ _ _ | AEncode _ | AIter _ _ | ALook _ | ACut _ _ _ | ANext _ _ => True
  | ASet i _ _ _ | ASetSlice i _ _ | AAppend i _ _ => (n <= i)%nat /\ ~ view i
  | ADecode i _ | AReset i _ => (n <= i)%nat /\ view i
  | ACopy _ | AWrite _ _ _ | AExtend _ _ => False
  end.

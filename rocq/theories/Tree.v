(** * Trees of nested messages (C20) *)
From Verif Require Export Api.

(** Message types that may refer to each other, also recursively: the generated
    struct and the kind of each declared field. *)
Inductive tkind := TScalar (T : ptype) | TMsg (id : nat) | TRep (id : nat).
Record env := mkEnv { emt : nat -> mtype; ekind : nat -> Z -> option tkind }.

(** A sub-message field is a bytes field holding the child's encoding. *)
Definition esc (D : env) (id : nat) : schema := fun f =>
  match ekind D id f with
  | Some (TScalar T) => Some (KSingle T)
  | Some (TMsg _) => Some (KSingle PBytes)
  | Some (TRep _) => Some KRepeated
  | None => None
  end.
Definition env_ok (D : env) : Prop := forall id, schema_ok (emt D id) (esc D id).

(** A finite tree, as the sequence of steps that builds its root: set a scalar
    field, set a sub-message field to a tree, append a tree to a repeated field.
    Steps may come in any order and fields may be set again. *)
Inductive tree :=
| TNil
| TSet (f : Z) (v : pval) (rest : tree)
| TSub (f : Z) (child : tree) (rest : tree)
| TAdd (f : Z) (child : tree) (rest : tree).

(** The tree is one of type [id]. *)
Fixpoint tree_ok (D : env) (id : nat) (t : tree) : Prop :=
  match t with
  | TNil => True
  | TSet f v rest => (exists T, ekind D id f = Some (TScalar T) /\ in_type T v) /\ tree_ok D id rest
  | TSub f c rest => (exists id', ekind D id f = Some (TMsg id') /\ tree_ok D id' c) /\ tree_ok D id rest
  | TAdd f c rest => (exists id', ekind D id f = Some (TRep id') /\ tree_ok D id' c) /\ tree_ok D id rest
  end.

(** An upper bound of the encoded size. *)
Fixpoint tree_size (t : tree) : Z :=
  match t with
  | TNil => 0
  | TSet _ v rest => 20 + pval_size v + tree_size rest
  | TSub _ c rest | TAdd _ c rest => 20 + tree_size c + tree_size rest
  end.

(** What the tree holds at field [f] of its root: the last scalar set, the last
    sub-tree set, the sub-trees appended, in order. *)
Fixpoint scalar_at (t : tree) (f : Z) : option pval :=
  match t with
  | TNil => None
  | TSet g v rest =>
    match scalar_at rest f with Some x => Some x | None => if g =? f then Some v else None end
  | TSub _ _ rest | TAdd _ _ rest => scalar_at rest f
  end.
Fixpoint sub_at (t : tree) (f : Z) : option tree :=
  match t with
  | TNil => None
  | TSub g c rest =>
    match sub_at rest f with Some x => Some x | None => if g =? f then Some c else None end
  | TSet _ _ rest | TAdd _ _ rest => sub_at rest f
  end.
Fixpoint elems_at (t : tree) (f : Z) : list tree :=
  match t with
  | TNil => []
  | TAdd g c rest => if g =? f then c :: elems_at rest f else elems_at rest f
  | TSet _ _ rest | TSub _ _ rest => elems_at rest f
  end.

(** Building bottom-up with the generated methods: a child is built completely
    in its own struct before SetX / AppendToX copies it into the parent. *)
Fixpoint build_from (D : env) (id : nat) (m : msg) (t : tree) : res msg :=
  match t with
  | TNil => Ok m
  | TSet f v rest =>
    match ekind D id f with
    | Some (TScalar T) => let* m := m_set T m f v in build_from D id m rest
    | _ => Panic
    end
  | TSub f c rest =>
    match ekind D id f with
    | Some (TMsg id') =>
      let* x := build_from D id' (msg_zero (emt D id')) c in
      let* m := m_SetMessage m f x in build_from D id m rest
    | _ => Panic
    end
  | TAdd f c rest =>
    match ekind D id f with
    | Some (TRep id') =>
      let* x := build_from D id' (msg_zero (emt D id')) c in
      let* m := m_AppendTo m f x in build_from D id m rest
    | _ => Panic
    end
  end.
Definition build (D : env) (id : nat) (t : tree) : res msg :=
  build_from D id (msg_zero (emt D id)) t.

(** [reads D id m t]: reading [m] with all accessors, sub-message accessors (into
    any struct of the type) and iterators, recursively, shows the tree [t]. *)
Inductive reads (D : env) : nat -> msg -> tree -> Prop :=
| Reads id m t :
    (forall f T, ekind D id f = Some (TScalar T) ->
       m_get T m f = Ok (match scalar_at t f with Some v => stored v | None => default_of T end)) ->
    (forall f id' x, ekind D id f = Some (TMsg id') -> sub_at t f = None ->
       m_Message (emt D id') m f x = Ok (false, None, x)) ->
    (forall f id' x c, ekind D id f = Some (TMsg id') -> sub_at t f = Some c -> of_type (emt D id') x ->
       exists y, m_Message (emt D id') m f x = Ok (true, None, y) /\ reads D id' y c) ->
    (forall f id' x n, ekind D id f = Some (TRep id') -> of_type (emt D id') x ->
       (length (elems_at t f) < n)%nat ->
       exists l, m_iterate n (emt D id') m f x = Ok l /\
         Forall2 (fun p c => p.1 = None /\ reads D id' p.2 c) l (elems_at t f)) ->
    reads D id m t.

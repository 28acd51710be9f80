(** * Encodings of whole trees, and clients that keep a tree beside the message

    The setting of the repository's randomised tests (rand_test.go): another
    protobuf implementation holds an ordinary tree of objects, zeropb holds a
    struct, and they exchange bytes or copy field by field. *)
From Verif Require Export Tree.

(** The records [s] of a message hold the tree [t] at its root; [E id p c] says
    that the bytes [p] encode the sub-tree [c] of type [id].
    - A scalar field reads as in the tree (a field with its default value may be
      left out; a record may occur several times, the last counts).
    - A sub-message field has one record if it is in the tree and none otherwise.
    - A repeated field has one record per element, in order. *)
Definition holds (E : nat -> list Z -> tree -> Prop) (D : env) (id : nat) (s : Z -> list wval) (t : tree) : Prop :=
  (forall f T, ekind D id f = Some (TScalar T) ->
     (forall w, last (s f) = Some w -> conforms T w) /\
     read_single T (s f) = match scalar_at t f with Some v => stored v | None => default_of T end) /\
  (forall f id', ekind D id f = Some (TMsg id') -> sub_at t f = None -> s f = []) /\
  (forall f id' c, ekind D id f = Some (TMsg id') -> sub_at t f = Some c ->
     exists p, s f = [WBytes p] /\ E id' p c) /\
  (forall f id', ekind D id f = Some (TRep id') ->
     Forall2 (fun w c => exists p, w = WBytes p /\ E id' p c) (s f) (elems_at t f)).

(** [encodes D id bs t]: [bs] is a protobuf encoding of the tree [t] of type
    [id]: any order of the records, any encoding of varints, and any records of
    undeclared fields that have a slot in the struct. *)
Inductive encodes (D : env) : nat -> list Z -> tree -> Prop :=
| Encodes id rs bs t :
    wire rs bs -> Forall (fun r => r.1 < Z.of_nat (alen (emt D id))) rs ->
    holds (encodes D) D id (fun f => occ f rs) t ->
    encodes D id bs t.

(** ** Mutating both sides (rand_test.go:174-290) *)

(** One mutation of the struct together with the same mutation of the tree.  A
    sub-message is given as the struct [x] and the tree [c] of the other side. *)
Inductive tmut :=
| MScalar (f : Z) (v : pval)
| MSub (f : Z) (x : msg) (c : tree)
| MAdd (f : Z) (x : msg) (c : tree)
| MReset
| MDecode (bs : list Z) (t : tree).

(** What it does to the struct: the generated methods. *)
Definition zero_step (D : env) (id : nat) (m : msg) (u : tmut) : res msg :=
  match u with
  | MScalar f v => match ekind D id f with Some (TScalar T) => m_set T m f v | _ => Panic end
  | MSub f x _ => m_SetMessage m f x
  | MAdd f x _ => m_AppendTo m f x
  | MReset => m_Reset m []
  | MDecode bs _ => let* (err, m) := m_Decode (emt D id) m bs in match err with None => Ok m | Some _ => Panic end
  end.
Fixpoint zero_run (D : env) (id : nat) (m : msg) (us : list tmut) : res msg :=
  match us with
  | [] => Ok m
  | u :: us => let* m := zero_step D id m u in zero_run D id m us
  end.

(** What it does to the tree. *)
Fixpoint tapp (t1 t2 : tree) : tree :=
  match t1 with
  | TNil => t2
  | TSet f v r => TSet f v (tapp r t2)
  | TSub f c r => TSub f c (tapp r t2)
  | TAdd f c r => TAdd f c (tapp r t2)
  end.
Definition tree_step (t : tree) (u : tmut) : tree :=
  match u with
  | MScalar f v => tapp t (TSet f v TNil)
  | MSub f _ c => tapp t (TSub f c TNil)
  | MAdd f _ c => tapp t (TAdd f c TNil)
  | MReset => TNil
  | MDecode _ t' => t'
  end.

(** The mutation is one of the type, and a sub-message's bytes encode its tree:
    wherever the struct [x] comes from, decoded from foreign bytes or built.  The
    bytes given to Decode have minimal tags, as every protobuf implementation writes
    them, and values of the declared types, at most one per non-repeated field. *)
Definition mut_ok (D : env) (id : nat) (u : tmut) : Prop :=
  match u with
  | MScalar f v => exists T, ekind D id f = Some (TScalar T) /\ in_type T v
  | MSub f x c => exists id', ekind D id f = Some (TMsg id') /\ encodes D id' (m_Encode x) c
  | MAdd f x c => exists id', ekind D id f = Some (TRep id') /\ encodes D id' (m_Encode x) c
  | MReset => True
  | MDecode bs t => exists rs, wire_min rs bs /\
      Forall (fun r => r.1 < Z.of_nat (alen (emt D id)) /\ well_typed (esc D id) r) rs /\ sparse (esc D id) rs /\
      holds (encodes D) D id (fun f => occ f rs) t
  end.

Definition mut_size (u : tmut) : Z :=
  match u with
  | MScalar _ v => 20 + pval_size v
  | MSub _ x _ | MAdd _ x _ => 20 + Z.of_nat (length (m_Encode x))
  | MReset => 0
  | MDecode bs _ => Z.of_nat (length bs)
  end.
Definition muts_size (us : list tmut) : Z := foldr (fun u n => mut_size u + n) 0 us.

(** * What calls cost, in memory accesses *)
From Verif Require Import GoBase Heap Api.
From Verif Require Import Access AccessApi SpecGo.

(** [p], alone in memory [G], ends with outcome [r] and memory [G'] after [k] accesses
    (an allocation counts as one). *)
Inductive spends {A} : heap -> prog A -> nat -> heap -> res A -> Prop :=
| spends_stop G r : spends G (Stop r) 0 G r
| spends_load G l w k n G' r : G !! l = Some w -> spends G (k w) n G' r -> spends G (Load l k) (S n) G' r
| spends_store G l w k n G' r : is_Some (G !! l) -> spends (<[l := w]> G) k n G' r -> spends G (Store l w k) (S n) G' r
| spends_new G kd m k id n G' r : (forall l w, G !! l = Some w -> block l <> (kd, id)) ->
    spends (new_cells kd m id ∪ G) (k id) n G' r -> spends G (New kd m k) (S n) G' r.

(** Struct number [o] holds the message [m]. *)
Definition stores (G : heap) (o : nat) (m : msg) : Prop :=
  (exists s, G !! Buf o = Some (Hdr s) /\ bytes_at G s (mbuf m)) /\
  (forall i x, oa (moff m) !! i = Some x -> G !! Off o i = Some (Num x)) /\
  match om (moff m) with
  | None => G !! Ref o = Some (Ptr None)
  | Some t => exists l, G !! Ref o = Some (Ptr (Some l)) /\ G !! Table l = Some (Tbl t)
  end.

(** ** Building a message *)

(** A call that adds a record: AppendBytes, or a setter with a value of the client's or
    a slice in memory. *)
Inductive adding :=
| Add_append (f : Z) (v : src)
| Add_set (T : ptype) (f : Z) (v : pval)
| Add_slice (f : Z) (s : option slice).
Definition added_to (a : adding) : Z := match a with Add_append f _ | Add_set _ f _ | Add_slice f _ => f end.
Definition is_setter (a : adding) : Prop := match a with Add_append _ _ => False | _ => True end.
(** The bytes of the value (a number counts as 0: it has at most ten). *)
Definition added_size (a : adding) : Z :=
  match a with Add_append _ v => src_len v | Add_set _ _ v => pval_size v | Add_slice _ s => hlen s end.
Definition c_adding (grow : Z -> Z -> Z) (n o : nat) (a : adding) : prog unit :=
  match a with
  | Add_append f v => c_append_bytes grow n o f v
  | Add_set T f v => c_set grow T n o f v
  | Add_slice f s => c_set_view grow n o f s
  end.
Fixpoint c_building (grow : Z -> Z -> Z) (n o : nat) (l : list adding) : prog unit :=
  match l with [] => ret tt | a :: l => let! _ := c_adding grow n o a in c_building grow n o l end.
Fixpoint total_size (l : list adding) : Z := match l with [] => 0 | a :: l => added_size a + total_size l end.

(** * Clients of a generated package

    Specification: a Go program that holds a struct of a generated message type at
    address [l] and calls its methods by name. *)
From Verif Require Import Gen GoLang Spec GenApi GenSpec GoSem.

Section client.
Context (ds : list decl) (d : descriptor) (n : nat).

(** An operation of Spec.v as a method call; [n] bounds the depth of calls.  For a
    field of message type the value is the encoding of a struct of that type, which
    is passed instead. *)
Definition struct_arg (f : field) (bs : list Z) : obj :=
  OMsg (base_name (getTypeName (Some f))) (mkMsg bs (offsets_zero 0)).
Definition go_step (σ : heap) (l : nat) (o : op) : res heap :=
  match o with
  | OSet k v =>
    match field_at d k with
    | Some f =>
      let name := "Set" +:+ camel (getName (Some f)) in
      if getType (Some f) =? 11 then
        let lx := fresh (dom σ) in
        let* (_, σ) := invoke ds n (<[lx := struct_arg f (match v with VBytes b => default [] b | _ => [] end)]> σ) l name [GObj lx] in Ok σ
      else let* (_, σ) := invoke ds n σ l name [GP v] in Ok σ
    | None => Panic
    end
  | OAppend k x =>
    match field_at d k with
    | Some f =>
      let lx := fresh (dom σ) in
      let* (_, σ) := invoke ds n (<[lx := struct_arg f x]> σ) l ("AppendTo" +:+ camel (getName (Some f))) [GObj lx] in Ok σ
    | None => Panic
    end
  | OReset => let* (_, σ) := invoke ds n σ l "Reset" [GP (VBytes None)] in Ok σ
  | ODecode _ bs =>
    let* (vs, σ) := invoke ds n σ l "Decode" [GP (VBytes (Some bs))] in
    match vs with [GErr None] => Ok σ | _ => Panic end
  end.
Fixpoint go_run (σ : heap) (l : nat) (os : list op) : res heap :=
  match os with
  | [] => Ok σ
  | o :: os => let* σ := go_step σ l o in go_run σ l os
  end.

(** The loop [it := m.F(); for { ok, err := it.Next(&x); if !ok {break}; ... }] with
    [x] at [lx], the iterator in a new variable, and at most [k] calls of Next: the
    error and the contents of [x] after each successful call. *)
Fixpoint go_loop (k : nat) (σ : heap) (li lx : nat) : res (list (option error * msg)) :=
  match k with
  | O => OutOfFuel
  | S k =>
    let* (vs, σ) := invoke ds n σ li "Next" [GObj lx] in
    match vs, σ !! lx with
    | [GP (VBool true); GErr err], Some (OMsg _ x) => let* r := go_loop k σ li lx in Ok ((err, x) :: r)
    | [GP (VBool false); GErr None], _ => Ok []
    | _, _ => Panic
    end
  end.
Definition go_iterate (k : nat) (σ : heap) (l : nat) (f : option field) (lx : nat) : res (list (option error * msg)) :=
  let* (vs, σ) := invoke ds n σ l (camel (getName f)) [] in
  match vs with
  | [GP (VBytes it)] =>
    let li := fresh (dom σ) in go_loop k (<[li := OBytes (iterator d f) it]> σ) li lx
  | _ => Panic
  end.
End client.

(** [σ'] is [σ] except for the object at [l] and new objects. *)
Definition elsewhere (σ σ' : heap) (l : nat) : Prop := forall l0, l0 ∈ dom σ -> l0 <> l -> σ' !! l0 = σ !! l0.

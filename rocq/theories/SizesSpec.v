(** What the memory footprint of an object should be. *)
From Coq Require Import List Bool Arith.
From Verif Require Import Base SizesModel.
Import ListNotations.
Local Open Scope list_scope.

(** [y] is a key or a value of the mapping [x], or an attribute of the container [x]. *)
Definition holds (h : heap) (x y : nat) : Prop :=
  exists o, nth_error h x = Some o /\
    match knd o with
    | Map items => exists k v, In (k, v) items /\ (y = k \/ y = v)
    | Cont (Some l) => In y l
    | _ => False
    end.
Inductive reaches (h : heap) : nat -> nat -> Prop :=
| reaches_here x : reaches h x x
| reaches_on x y z : holds h x y -> reaches h y z -> reaches h x z.
(** A list, a tuple, a set... *)
Definition no_dict (h : heap) (x : nat) : Prop := exists s, nth_error h x = Some (Obj s (Cont None)).
(** What is held is in the heap. *)
Definition closed (h : heap) : Prop := forall x y, holds h x y -> y < List.length h.
Fixpoint total (h : heap) (l : list nat) : nat :=
  match l with
  | [] => 0
  | x :: l => match nth_error h x with Some o => size o | None => 0 end + total h l
  end.

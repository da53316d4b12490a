(** What a workflow should offer at each of its steps. *)
From Coq Require Import List Bool Arith.
From Verif Require Import Base OfferedModel.
Import ListNotations.

(** The inputs asked for after step [i]. *)
Definition later (steps : list (list nat)) (i : nat) : list nat := concat (skipn (S i) steps).
(** An output is ready at a step when none of its inputs is asked for later. *)
Definition ready {D L} (steps : list (list nat)) (i : nat) (o : shown D L) : Prop := forall v, In v (upstream o) -> ~ In v (later steps i).
(** The position of the first occurrence. *)
Definition position (l : list nat) (v k : nat) : Prop := nth_error l k = Some v /\ forall j, j < k -> nth_error l j <> Some v.
(** Sublists that keep exactly what satisfies a property, in order. *)
Inductive kept {A} (P : A -> Prop) : list A -> list A -> Prop :=
| kept_nil : kept P [] []
| kept_take x l m : P x -> kept P l m -> kept P (x :: l) (x :: m)
| kept_skip x l m : ~ P x -> kept P l m -> kept P (x :: l) m.

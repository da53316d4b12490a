(** What it means for a workflow to have the same diagram as another. *)
From Coq Require Import List.
From Verif Require Import ExecModel WiringModel.
Import ListNotations.

(** The diagram of [w] with every variable [v] replaced by [f v]: same blocks with
    the same ports in the same order, same pipes in the same order, same output. *)
Definition relabel (f : nat -> nat) (w : workflow) : workflow :=
  mkWf (map (fun b => mkBlock (map f (b_in b)) (map f (b_out b))) (blocks w))
       (map (fun p => (f (fst p), f (snd p))) (pipes w))
       (option_map f (output w)).

(** Different variables of [w] stay different. *)
Definition separates (f : nat -> nat) (w : workflow) : Prop :=
  forall u v, In u (variables w) -> In v (variables w) -> f u = f v -> u = v.

(** Vocabulary for the step edition properties. *)
From Coq Require Import ZArith String List Permutation.
From Verif Require Import Base StepsModel.
Import ListNotations.

(** Every workflow input is in exactly one place: all the places together are a
    rearrangement of the duplicate-free list of inputs. *)
Definition in_exactly_one_place (inputs : list var) (s : st) : Prop :=
  Permutation (spare s ++ concat (map s_inputs (steps s))) inputs.

(** Where an input is. *)
Inductive place := Spare | InStep (k : nat).
Definition located (s : st) (v : var) (p : place) : Prop :=
  match p with
  | Spare => In v (spare s)
  | InStep k => exists x, nth_error (steps s) k = Some x /\ In v (s_inputs x)
  end.

(** Arguments that make sense: an order lists each index once, and step orders
    use ordinary (non negative) indices. *)
Definition sensible (o : op) : Prop :=
  match o with
  | ReorderStepInputs _ order => NoDup order
  | ReorderSteps order => forall i, In i order -> (0 <= i)%Z
  | _ => True
  end.

(** The outcome of every "take this input out of its step" edit is a success. *)
Definition removals_succeed (ops : list op) (outcomes : list (option exn)) : Prop :=
  forall n i e, nth_error ops n = Some (RemoveInputFromStep i) ->
                nth_error outcomes n = Some e -> e = None.

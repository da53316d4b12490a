(** Words on the documentation of the inputs of blocks. *)
From Coq Require Import List String.
From Verif Require Import Base SubdocModel.
Import ListNotations.

Section Spec.
Variable doc : Type.
Notation block := (block doc).

Definition inputs (b : block) : list nat :=
  match b with
  | Basic _ ins => ins | Documented _ ins _ => map fst ins | WorkflowBlock _ ins _ _ => ins | ForEach _ ins _ _ => ins
  end.
(** The block is not made of a workflow, and its docstring can be parsed. *)
Definition readable (b : block) : Prop :=
  match b with Basic _ _ => True | Documented _ _ parsed => exists l, parsed = Ok l | _ => False end.
(** An input of the block that is not a WorkflowBlock, or an input of its workflow when it is one *)
Definition described (b : block) (i : nat) : Prop :=
  match b with WorkflowBlock _ _ _ wins => In i wins | _ => In i (inputs b) end.
End Spec.

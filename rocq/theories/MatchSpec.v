(** Which variables can be wired together, without the model's functions. *)
From Coq Require Import List Bool Arith.
From Verif Require Import Base ExecModel.
Import ListNotations.

(** [v] is on block [b], as an output or not. *)
Definition on_block (w : workflow) (b : nat) (is_output : bool) (v : nat) : Prop :=
  exists bl, nth_error (blocks w) b = Some bl /\ In v (if is_output then b_out bl else b_in bl).

(** Not on the same block, and not both inputs or both outputs of blocks. *)
Definition apart (w : workflow) (v o : nat) : Prop :=
  (forall b s s', on_block w b s v -> ~ on_block w b s' o) /\ (forall b b' s, on_block w b s v -> ~ on_block w b' s o).

Definition can_wire (w : workflow) {T} (type_ : nat -> option T) (typematch : T -> T -> res bool) (v o : nat) : Prop :=
  In o (variables w) /\ v <> o /\ apart w v o /\
  exists t u, type_ v = Some t /\ type_ o = Some u /\ typematch t u = Ok true.

(** Has a type. *)
Definition typed (T : Type) (type_ : nat -> option T) (v : nat) : bool := match type_ v with Some _ => true | None => false end.

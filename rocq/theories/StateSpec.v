(** Which values of pipes a workflow state keeps. *)
From Coq Require Import List.
From Verif Require Import Base ExecModel ExecSpec BranchSpec.
Import ListNotations.

Section Spec.
Context {V D : Type}.
Variable w : workflow.

(** Pipe [p] starts from an input that has a value in [s]. *)
Definition given_pipe (s : state V) (p : nat) : Prop :=
  exists i v t, nth_error (inputs w) i = Some v /\ nth_error (pipes w) p = Some (v, t) /\ s_iv s i <> None.

(** Pipe [p] enters the first input of a display block, or goes from a block the output
    needs into a block shown by a display or an export or that only leads to it. *)
Definition memorised (displays exports : list nat) (p : nat) : Prop :=
  (exists c b t rest q, In c displays /\ nth_error (blocks w) c = Some b /\ b_in b = t :: rest /\ nth_error (pipes w) p = Some (q, t))
  \/ exists c n m, In c (displays ++ exports) /\ leads_to w c n /\ needed w m /\ pipe_joins w p m n.

(** The value [x] of pipe [p] is written in the dictionary of a state. *)
Definition saved (displays exports : list nat) (ser : V -> res D) (file_value : V -> bool) (p : nat) (x : V) : Prop :=
  memorised displays exports p /\ file_value x = false /\ exists d, ser x = Ok d.
End Spec.

(** The answers of two states to the same requests: the same exception, or the same
    values shown, and the same inputs, flags, output and evaluated blocks at the end. *)
Definition same_answers {V} (a b : res (state V * list (nat * V))) : Prop :=
  match a, b with
  | Ok (s, shown), Ok (r, shown') =>
      shown = shown' /\ (forall i, s_iv s i = s_iv r i) /\ (forall v, s_var s v = s_var r v)
      /\ (forall n, s_blk s n = s_blk r n) /\ s_out s = s_out r /\ evaluated s = evaluated r
  | Err e, Err f => e = f
  | _, _ => False
  end.

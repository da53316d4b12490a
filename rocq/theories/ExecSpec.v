(** What a workflow means, independently of how it is executed. *)
From Coq Require Import List Permutation.
From Verif Require Import Base ExecModel.
Import ListNotations.

(** Ordinary workflows: ports are distinct variables, a pipe goes from a block
    output or a free variable to a block input, no block input receives two pipes,
    and the output is a block output. *)
Record well_formed (w : workflow) : Prop := {
  wf_ports : NoDup (block_variables w);
  wf_single : NoDup (map snd (pipes w));
  wf_target : forall s t, In (s, t) (pipes w) -> exists b, In b (blocks w) /\ In t (b_in b);
  wf_source : forall s t b, In (s, t) (pipes w) -> In b (blocks w) -> ~ In s (b_in b);
  wf_output : forall o, output w = Some o -> exists b, In b (blocks w) /\ In o (b_out b) }.

(** A block input or free variable that nothing feeds. *)
Definition is_input (w : workflow) (v : nat) : Prop :=
  (exists b, In b (blocks w) /\ In v (b_in b) /\ ~ In v (map snd (pipes w)))
  \/ (In v (map fst (pipes w)) /\ ~ In v (block_variables w)).

Section Meaning.
Context {V : Type}.
Variable w : workflow.
(** value given to each input *)
Variable given : nat -> option V.
Variable evaluate : nat -> list V -> res (list V).

(** [has_value v x]: data flow, least solution of the equations of the workflow. *)
Inductive has_value : nat -> V -> Prop :=
| hv_input : forall v x, is_input w v -> given v = Some x -> has_value v x
| hv_pipe : forall s t x, In (s, t) (pipes w) -> has_value s x -> has_value t x
| hv_block : forall n b xs ys j v y,
    nth_error (blocks w) n = Some b ->
    have_values (b_in b) xs ->
    evaluate n xs = Ok ys ->
    nth_error (b_out b) j = Some v -> nth_error ys j = Some y ->
    has_value v y
with have_values : list nat -> list V -> Prop :=
| hvs_nil : have_values [] []
| hvs_cons : forall v x vs xs, has_value v x -> have_values vs xs -> have_values (v :: vs) (x :: xs).

(** The evaluation of block [n] on the values of its inputs. *)
Definition block_result (n : nat) (ys : list V) : Prop :=
  exists b xs, nth_error (blocks w) n = Some b /\ have_values (b_in b) xs /\ evaluate n xs = Ok ys.
End Meaning.

(** [feeds w m n]: some output of block [m] is piped into block [n]. *)
Definition feeds (w : workflow) (m n : nat) : Prop :=
  exists bm bn s t, nth_error (blocks w) m = Some bm /\ nth_error (blocks w) n = Some bn
    /\ In s (b_out bm) /\ In t (b_in bn) /\ In (s, t) (pipes w).

(** Blocks the output depends on. *)
Inductive needed (w : workflow) : nat -> Prop :=
| needed_output : forall o n b, output w = Some o -> nth_error (blocks w) n = Some b ->
    In o (b_out b) -> needed w n
| needed_upstream : forall m n, feeds w m n -> needed w n -> needed w m.

(** Every locked variable has a default value (maintained by lock/unlock). *)
Definition locks_sound {V} (default : nat -> option V) (lock_flag : nat -> bool) : Prop :=
  forall v, lock_flag v = true -> default v <> None.

(** The value an input [v] of the workflow receives when the user supplies
    [user] (pairs index of the input, value): its default if it is locked,
    otherwise the value the user supplied for it, otherwise its default. *)
Definition given_by {V} (w : workflow) (default : nat -> option V) (lock_flag : nat -> bool)
    (user : list (nat * V)) (v : nat) : option V :=
  if lock_flag v then default v
  else match find (fun ix => match nth_error (inputs w) (fst ix) with
                             | Some u => Nat.eqb u v | None => false end) user with
       | Some ix => Some (snd ix)
       | None => default v
       end.

(** Acyclicity of the needed part of the workflow. *)
Definition acyclic (w : workflow) : Prop :=
  exists rank : nat -> nat, forall m n, feeds w m n -> needed w n -> rank m < rank n.

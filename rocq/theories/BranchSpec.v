(** What a branch of a workflow is. *)
From Coq Require Import List.
From Verif Require Import Base ExecModel ExecSpec.
Import ListNotations.

(** [leads_to w b x]: [x] is [b] or a block the output does not depend on, from which
    [b] is reached through such blocks. *)
Inductive leads_to (w : workflow) (b : nat) : nat -> Prop :=
| leads_self : leads_to w b b
| leads_step : forall x y, feeds w x y -> ~ needed w x -> leads_to w b y -> leads_to w b x.

(** [depends_on w b x]: [b] depends on [x]. *)
Inductive depends_on (w : workflow) (b : nat) : nat -> Prop :=
| depends_self : depends_on w b b
| depends_step : forall x y, feeds w x y -> depends_on w b y -> depends_on w b x.

(** Pipe [p] goes from an output of block [m] to an input of block [n]. *)
Definition pipe_joins (w : workflow) (p m n : nat) : Prop :=
  exists bm bn s t, nth_error (blocks w) m = Some bm /\ nth_error (blocks w) n = Some bn
    /\ In s (b_out bm) /\ In t (b_in bn) /\ nth_error (pipes w) p = Some (s, t).

(** The inputs of the workflow that block [n] reads: its own ports that nothing feeds
    and the free variables piped into it. *)
Definition reads_input (w : workflow) (n v : nat) : Prop :=
  exists b u, nth_error (blocks w) n = Some b /\ In u (b_in b) /\ is_input w v
    /\ (u = v \/ In (v, u) (pipes w)).

(** The blocks of a set depend on one another without cycle. *)
Definition acyclic_on (w : workflow) (P : nat -> Prop) : Prop :=
  exists rank : nat -> nat, forall m n, feeds w m n -> P m -> P n -> rank m < rank n.

(** What giving values to inputs means. *)
From Coq Require Import List Bool Arith ZArith String.
From Verif Require Import Base ExecModel ExecSpec.
Import ListNotations.

(** Variable [v] takes what is given to input [u]: it is the input, or a pipe comes from it. *)
Definition takes (w : workflow) (v u : nat) : Prop := (v = u \/ In (u, v) (pipes w)).
(** What an input gets: a given value, or the one it has when it was activated. *)
Definition gets {V} (w : workflow) (values : nat -> option V) (s : state V) (i : nat) (x : V) : Prop :=
  exists v, nth_error (inputs w) i = Some v /\ (values i = Some x \/ (values i = None /\ s_var s v = true /\ s_iv s i = Some x)).
(** [s'] is [s] with values for some inputs. *)
Record given {V} (w : workflow) (values : nat -> option V) (l : list nat) (s s' : state V) : Prop := {
  given_in : forall i, In i l -> exists x, gets w values s i x /\ s_iv s' i = Some x;
  given_out : forall i, ~ In i l -> s_iv s' i = s_iv s i;
  given_variables : forall u, s_var s' u = true <-> s_var s u = true \/ exists i v, In i l /\ nth_error (inputs w) i = Some v /\ takes w u v;
  given_pipes : forall p q t, nth_error (pipes w) p = Some (q, t) ->
    (forall i, In i l -> nth_error (inputs w) i = Some q -> s_pipe s' p = s_iv s' i) /\
    ((forall i, In i l -> nth_error (inputs w) i <> Some q) -> s_pipe s' p = s_pipe s p);
  given_rest : s_blk s' = s_blk s /\ evaluated s' = evaluated s /\ s_out s' = s_out s }.

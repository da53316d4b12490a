(** What the widths of columns should be, said without the code. *)
From Coq Require Import ZArith QArith List Arith.
Import ListNotations.
Open Scope Q_scope.

(** [n] is the largest of [low] and the lengths [l]. *)
Definition largest (low : nat) (l : list nat) (n : nat) : Prop :=
  (low <= n)%nat /\ (forall k, In k l -> (k <= n)%nat) /\ (n = low \/ In n l).
(** [w] is [n] and a half, or [high] when this is more. *)
Definition bounded_half (high n : nat) (w : Q) : Prop :=
  ((n < high)%nat -> w == inject_Z (Z.of_nat n) + (1 # 2)) /\ ((high <= n)%nat -> w == inject_Z (Z.of_nat high)).

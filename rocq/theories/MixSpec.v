(** What the mix of packages of a workflow should be. *)
From Coq Require Import List String Bool Arith QArith.
From Verif Require Import Base MixModel.
Import ListNotations.
Local Open Scope list_scope.

Fixpoint fraction (m : mix) (p : string) : Q :=
  match m with
  | [] => 0%Q
  | (q, f) :: m => if (q =? p)%string then f else fraction m p
  end.
(** Whether a block, or a block of its workflow at any depth, uses a class. *)
Fixpoint counts (b : block) : bool := match b with Uses _ => true | Sub l => existsb counts l | Other => false end.
(** The part of a block: all of a package, or that of its workflow. *)
Definition part (b : block) (p : string) : Q :=
  match b with
  | Uses module => if (package module =? p)%string then 1%Q else 0%Q
  | Sub l => fraction (package_mix l) p
  | Other => 0%Q
  end.
Fixpoint parts (l : list block) (p : string) : Q := match l with [] => 0%Q | b :: l => (part b p + parts l p)%Q end.
Definition number (l : list block) : nat := List.length (filter counts l).

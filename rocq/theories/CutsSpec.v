(** What should be left of a graph. *)
From Coq Require Import List Bool Arith.
From Verif Require Import Base CutsModel.
Import ListNotations.

Definition edge (g : graph) (u v : nat) : Prop := In (u, v) (edges g).
(** One edge at most from a node to another, between nodes of the graph. *)
Definition simple (g : graph) : Prop := NoDup (nodes g) /\ NoDup (edges g) /\ forall u v, edge g u v -> In u (nodes g) /\ In v (nodes g).
Inductive walk (g : graph) : nat -> nat -> nat -> Prop :=
| walk_nil v : walk g 0 v v
| walk_cons n u v w : edge g u v -> walk g n v w -> walk g (S n) u w.
(** Nodes from which every walk ends, and goes through nodes with one predecessor only. *)
Inductive branch (g : graph) : nat -> Prop :=
| branch_intro u v : edge g u v -> (forall u', edge g u' v -> u' = u) -> (forall w, edge g v w -> branch g w) -> branch g v.
(** A tree: one root, one father for each other node, and a height that decreases. *)
Definition tree (g : graph) (root : nat) : Prop :=
  In root (nodes g) /\ (forall u, ~ edge g u root) /\
  (forall v, In v (nodes g) -> v <> root -> exists u, edge g u v /\ forall u', edge g u' v -> u' = u) /\
  exists height : nat -> nat, forall u v, edge g u v -> height v < height u.
Definition restricts (g : graph) (keep : nat -> Prop) (g' : graph) : Prop :=
  (forall v, In v (nodes g') <-> In v (nodes g) /\ keep v) /\ (forall u v, edge g' u v <-> edge g u v /\ keep u /\ keep v).

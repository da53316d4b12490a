(** Vocabulary for the borders of Pareto domains. *)
From Coq Require Import QArith List Bool Arith.
From Verif Require Import ParetoSpec.
Import ListNotations.
Open Scope nat_scope.

(** a cost of a point *)
Definition cost (k : nat) (p : list Q) : Q := nth k p 0%Q.
(** a point that no other one dominates *)
Definition best (data : list (list Q)) (p : list Q) : Prop := In p data /\ forall q, In q data -> ~ dominates q p.
(** a point that is at least as good as all, for all costs *)
Definition winner (data : list (list Q)) (p : list Q) : Prop := In p data /\ forall q, In q data -> covers p q.

(** the least and the greatest value of a cost *)
Definition least (k : nat) (data : list (list Q)) (m : Q) : Prop :=
  (exists p, In p data /\ cost k p = m) /\ forall p, In p data -> (m <= cost k p)%Q.
Definition greatest (k : nat) (data : list (list Q)) (m : Q) : Prop :=
  (exists p, In p data /\ cost k p = m) /\ forall p, In p data -> (cost k p <= m)%Q.

(** how far a point is above the line that joins two points, the first one on the left *)
Definition height (f : (Q * Q) * (Q * Q)) (x y : Q) : Q :=
  ((y - snd (fst f)) * (fst (snd f) - fst (fst f)) - (snd (snd f) - snd (fst f)) * (x - fst (fst f)))%Q.
Definition above (f : (Q * Q) * (Q * Q)) (x y : Q) : Prop := (0 <= height f x y)%Q.
Definition on_line (f : (Q * Q) * (Q * Q)) (x y : Q) : Prop := (height f x y == 0)%Q.

(** the pairs of different costs, in their order *)
Definition pairs (w : nat) : list (nat * nat) := filter (fun p => negb (fst p =? snd p)) (list_prod (seq 0 w) (seq 0 w)).

(** what joins two best points, one of them the best for the second cost, from the least to the greatest value of the
    first cost *)
Definition joins (data : list (list Q)) (xy : nat * nat) (f : (Q * Q) * (Q * Q)) : Prop :=
  let (x, y) := xy in
  least x data (fst (fst f)) /\ greatest x data (fst (snd f)) /\ (fst (fst f) < fst (snd f))%Q /\
  exists p q, best data p /\ best data q /\ least y data (cost y p) /\ ~ (cost x p == cost x q)%Q /\
    on_line f (cost x p) (cost y p) /\ on_line f (cost x q) (cost y q).

(** the same numbers, costs in rows *)
Definition columns (w : nat) (data cols : list (list Q)) : Prop :=
  length cols = w /\ (forall c, In c cols -> length c = length data) /\
  forall i j, i < length data -> j < w -> nth i (nth j cols []) 0%Q = nth j (nth i data []) 0%Q.

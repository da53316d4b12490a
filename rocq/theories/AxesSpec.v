(** What is said of the axes of a parallel plot. *)
From Coq Require Import QArith String List Permutation.
Import ListNotations.

(** All values are the same. *)
Definition fixed (l : list Q) : Prop := exists x, l <> [] /\ forall y, In y l -> (y == x)%Q.

(** Next to each other. *)
Definition adjacent (a b : string) (l : list string) : Prop :=
  exists p q, l = p ++ a :: b :: q \/ l = p ++ b :: a :: q.

(** The square of the coefficient of correlation, exactly. *)
Definition sum (l : list Q) : Q := fold_right Qplus 0%Q l.
Definition correlation2 (x y : list Q) : Q :=
  let n := inject_Z (Z.of_nat (List.length x)) in
  let cov a b := (n * sum (map (fun p => fst p * snd p) (combine a b)) - sum a * sum b)%Q in
  (cov x y * cov x y / (cov x x * cov y y))%Q.

(** The iteration over a set has each of its elements once. *)
Definition lists_sets (order : list string -> list string) : Prop :=
  forall l, NoDup l -> Permutation (order l) l.

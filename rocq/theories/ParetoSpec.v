(** Vocabulary for Pareto fronts. *)
From Coq Require Import QArith List.
From Verif Require Import ParetoModel.
Import ListNotations.
Open Scope nat_scope.

(** [covers p q]: no cost of [p] is greater than the cost of [q]. *)
Definition covers (p q : list Q) : Prop := Forall2 Qle p q.
(** [dominates p q]: moreover one is smaller. *)
Definition dominates (p q : list Q) : Prop := covers p q /\ Exists (fun xy => (fst xy < snd xy)%Q) (combine p q).
(** costs that cannot be compared *)
Definition incomparable (p q : list Q) : Prop := ~ covers p q /\ ~ covers q p.

(** [front all kept]: [kept] are the best of [all]. *)
Definition front {A} (all kept : list (A * list Q)) : Prop :=
  (forall p, In p kept -> In p all /\ forall q, In q all -> ~ dominates (snd q) (snd p))
  /\ ForallOrdPairs (fun p q => incomparable (snd p) (snd q)) kept
  /\ (forall q, In q all -> exists p, In p kept /\ covers (snd p) (snd q)).

(** a matrix of so many columns *)
Definition width (w : nat) (costs : list (list Q)) : Prop := Forall (fun row => length row = w) costs.
(** a standard deviation is positive, or null for a constant column *)
Definition deviation (std : list cell -> cell) : Prop :=
  forall l, l <> [] -> exists s, std (map Some l) = Some s /\
    (0 < s \/ (s == 0 /\ forall x y, In x l -> In y l -> x == y))%Q.

(** [subsequence l l']: [l] is [l'] without some elements. *)
Inductive subsequence {A} : list A -> list A -> Prop :=
| sub_nil : subsequence [] []
| sub_keep x l l' : subsequence l l' -> subsequence (x :: l) (x :: l')
| sub_drop x l l' : subsequence l l' -> subsequence l (x :: l').

(** What means should be, said without the code. *)
From Coq Require Import ZArith QArith List String.
From Verif Require Import Base DatasetModel DatasetSpec.
Import ListNotations.
Open Scope Q_scope.

Definition total (l : list Q) : Q := fold_right Qplus 0 l.
Definition size {A} (l : list A) : Q := inject_Z (Z.of_nat (List.length l)).

Section Spec.
Context {Obj : Type}.
Variable vector_features : Obj -> list string.
Variable to_vector : Obj -> list Q.

(** [x] is the average of the components of the objects [l] for their feature [a]. *)
Definition average (l : list Obj) (a : string) (x : Q) : Prop :=
  exists column, Forall2 (fun o v => reads vector_features to_vector o a v) l column /\ size l * x == total column.
(** [m] has an average for each feature that all the objects have, and no other. *)
Definition averages (l : list Obj) (m : list Q) : Prop :=
  exists names, NoDup names /\ (forall a, In a names <-> forall o, In o l -> In a (vector_features o)) /\ Forall2 (average l) names m.
End Spec.

(** Vocabulary for clustered datasets. *)
From Coq Require Import ZArith String List.
From Verif Require Import Base DatasetModel DatasetSpec ClusterModel.
Import ListNotations.
Open Scope nat_scope.

(** The order of a set: its elements, once each. *)
Definition lists_set (f : list Z -> list Z) : Prop :=
  forall l, NoDup (f l) /\ forall z, In z (f l) <-> In z l.
Definition lists_others (f : list Z -> list Z) : Prop :=
  forall l, NoDup (f l) /\ forall z, In z (f l) <-> In z l /\ z <> (-1)%Z.

Section Spec.
Context {Obj V : Type}.
Notation clustered := (clustered Obj V).
Notation objects := (DatasetModel.objects Obj V).
(** the objects with their labels *)
Definition labelled (c : clustered) : list (Obj * Z) := combine (objects (base _ _ c)) (labels _ _ c).
(** one label per object *)
Definition one_label_each (c : clustered) : Prop := length (labels _ _ c) = length (objects (base _ _ c)).
(** the objects of a label, in their order *)
Definition members (z : Z) (l : list (Obj * Z)) : list Obj := map fst (filter (fun q => Z.eqb (snd q) z) l).
(** [nearest far os o]: [o] is the first of the objects [os] which none of them is nearer than. *)
Definition nearest (far : Obj -> Obj -> bool) (os : list Obj) (o : Obj) : Prop :=
  exists i, nth_error os i = Some o
    /\ (forall o', In o' os -> far o o' = false)
    /\ forall j o', j < i -> nth_error os j = Some o' -> exists o'', In o'' os /\ far o' o'' = true.
End Spec.

(** comparisons of numbers other than NaN *)
Definition ordering {D} (lt eqb : D -> D -> bool) : Prop :=
  (forall x, lt x x = false) /\ (forall x y z, lt x y = true -> lt y z = true -> lt x z = true)
  /\ (forall x, eqb x x = true) /\ (forall x y z, eqb x y = true -> lt z x = lt z y)
  /\ (forall x y, eqb x y = false -> lt x y = true \/ lt y x = true).

(** Words on copies of objects. *)
From Coq Require Import List String.
From Verif Require Import Base StaleModel.
Import ListNotations.

Section Spec.
Variable value : Type.
(** The object has one value for each argument of its class, in order. *)
Definition built (o : obj value) : Prop :=
  map fst (attributes value o) = map fst (arguments value (class_of value o)) /\ NoDup (map fst (attributes value o)).
Definition named (n : string) (o : obj value) : Prop := full_classname value (class_of value o) = n.
(** Names of the arguments of the class of the object *)
Definition names (o : obj value) : list string := map fst (arguments value (class_of value o)).
(** The first object of the class of this name to be copied is [o1]. *)
Definition first_named (n : string) (history : list (obj value)) (o1 : obj value) : Prop :=
  exists before between, history = before ++ o1 :: between /\ named n o1 /\ forall o, In o before -> ~ named n o.
End Spec.

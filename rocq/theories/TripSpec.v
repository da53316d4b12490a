(** Vocabulary for serialising and deserialising. *)
From Coq Require Import ZArith Bool String Ascii List.
From Verif Require Import Base PyValue SerialSpec.
Import ListNotations.
Open Scope string_scope.
Open Scope list_scope.

Section Trip.
Variable non_serializable : string -> list string.
Variable arguments : string -> list string.

(** [recovered v w]: [w] has the data of [v]: same shape and classes, the serialised
    attributes that are arguments of the constructors; a sequence may be another kind of
    sequence, keys may be in another order. *)
Inductive recovered : val -> val -> Prop :=
| re_leaf v : seq_of v = None -> (forall d, v <> VDict d) -> (forall c d, v <> VObj c d) -> recovered v v
| re_seq v w l m : seq_of v = Some l -> seq_of w = Some m -> Forall2 recovered l m -> recovered v w
| re_dict d e : NoDup (map fst e) -> (forall k, In k (map fst e) <-> In k (map fst d)) ->
    (forall k x y, In (k, x) d -> In (k, y) e -> recovered x y) -> recovered (VDict d) (VDict e)
| re_obj c d e : NoDup (map fst e) ->
    (forall s, In (KStr s) (map fst d) -> serialised non_serializable c (KStr s) -> In s (arguments c) -> In (KStr s) (map fst e)) ->
    (forall s x y, In (KStr s, x) d -> serialised non_serializable c (KStr s) -> In s (arguments c) -> In (KStr s, y) e -> recovered x y) ->
    recovered (VObj c d) (VObj c e).
End Trip.

(** What the arguments of methods given by forms should be. *)
From Coq Require Import List String Ascii Bool Arith.
From Verif Require Import Base MethodsModel.
Import ListNotations.
Local Open Scope string_scope.
Local Open Scope list_scope.

(** Parts of a list, in its order. *)
Inductive part {A} : list A -> list A -> Prop :=
| part_nil : part [] []
| part_skip x l m : part l m -> part l (x :: m)
| part_take x l m : part l m -> part (x :: l) (x :: m).
(** Names of arguments do not start with a digit. *)
Definition digit (c : ascii) : Prop := 48 <= nat_of_ascii c <= 57.
Definition identifier (s : string) : Prop := exists c s', s = String c s' /\ ~ digit c.
(** What is cached is what the methods say. *)
Definition coherent {A} (full_classname : string) (methods cache : list (string * argspec A)) : Prop :=
  forall m s, get cache (full_classname ++ "." ++ m)%string = Some s -> get methods m = Some s.
(** The key of an argument is its number in decimal. *)
Definition key (k : nat) : string := DecimalString.NilZero.string_of_uint (Nat.to_uint k).

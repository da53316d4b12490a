(** Vocabulary of the filter statements: what it means for an object to satisfy
    a filter, independently of how the code computes it. *)
From Coq Require Import String QArith List.
From Verif Require Import Base.
Import ListNotations.
Open Scope string_scope.

(** Documented comparison operators (core.py:837-844). *)
Inductive compares : string -> Q -> Q -> Prop :=
| cmp_gt s v b : In s [">"; "gt"] -> (b < v)%Q -> compares s v b
| cmp_lt s v b : In s ["<"; "lt"] -> (v < b)%Q -> compares s v b
| cmp_ge s v b : In s [">="; "ge"; "gte"] -> (b <= v)%Q -> compares s v b
| cmp_le s v b : In s ["<="; "le"; "lte"] -> (v <= b)%Q -> compares s v b
| cmp_eq s v b : In s ["=="; "eq"] -> (v == b)%Q -> compares s v b
| cmp_ne s v b : In s ["!="; "ne"] -> ~ (v == b)%Q -> compares s v b.

Definition known_operators : list string :=
  [">"; "<"; ">="; "<="; "=="; "!="; "gt"; "lt"; "ge"; "le"; "eq"; "ne"; "gte"; "lte"].

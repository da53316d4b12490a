(** Vocabulary for the writing of Word documents. *)
From Coq Require Import List Arith.
Import ListNotations.

(** [last_writer columns rows k t]: among the rows put one after the other, each at the beginning of its line, [t] is the
    text of the last one that reaches the cell [k]. *)
Definition reaches {A} (columns : nat) (rows : list (list A)) (i k : nat) (t : A) : Prop :=
  exists row, nth_error rows i = Some row /\ i * columns <= k /\ nth_error row (k - i * columns) = Some t.
Definition last_writer {A} (columns : nat) (rows : list (list A)) (k : nat) (t : A) : Prop :=
  exists i, reaches columns rows i k t /\ forall i' t', i < i' -> ~ reaches columns rows i' k t'.
(** rows that stay in the table *)
Definition fit {A} (columns : nat) (rows : list (list A)) : Prop :=
  forall i row, nth_error rows i = Some row -> row <> [] -> i * columns + length row <= length rows * columns.

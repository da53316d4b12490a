(** What the table of a dataset should look like, said without the code. *)
From Coq Require Import Ascii String List Bool Arith.
From Verif Require Import Base AnnotationModel.
Import ListNotations.
Local Open Scope char_scope.
Local Open Scope list_scope.
Local Open Scope nat_scope.

(** A table of columns: each one after a bar, and a bar at the end. *)
Definition in_bars (columns : list str) : str := concat (map (fun c => "|" :: c) columns) ++ ["|"].

(** Lines one under the other *)
Fixpoint lines (l : list str) : str :=
  match l with
  | [] => []
  | [x] => x
  | x :: l' => x ++ ascii_of_nat 10 :: lines l'
  end.

(** The widths of the columns: 16 characters for names of at most ten characters, else the name, three
    spaces on each side, and one more when the last short name before it has an odd length. *)
Fixpoint widths (parity : nat) (names : list str) : list nat :=
  match names with
  | [] => []
  | n :: rest =>
      if List.length n <=? 10 then 16 :: widths (List.length n mod 2) rest
      else List.length n + 6 + parity :: widths parity rest
  end.

(** A value in a column: on the right, in full when it leaves three spaces, otherwise its beginning. *)
Definition in_column (width : nat) (value cell : str) : Prop :=
  (List.length value + 3 <= width /\ cell = repeat " " (width - 1 - List.length value) ++ value ++ [" "]) \/
  (width < List.length value + 3 /\ cell = " " :: firstn (width - 5) value ++ chars "... ").

(** A name in the middle of its column *)
Definition centered (width : nat) (name cell : str) : Prop :=
  exists left right shown, cell = repeat " " left ++ shown ++ repeat " " right /\
    List.length cell = width /\ (left = right \/ left = S right) /\ 3 <= right /\
    List.length shown = List.length name.

(** The announcement of the objects that are not shown *)
Definition not_shown (n : nat) (number : str) : str :=
  chars "+ " ++ number ++ (if n =? 1 then chars " undisplayed object..." else chars " undisplayed objects...").

(** Three lists that go together *)
Inductive Forall3 {A B C : Type} (P : A -> B -> C -> Prop) : list A -> list B -> list C -> Prop :=
| Forall3_nil : Forall3 P [] [] []
| Forall3_cons x y z l m n : P x y z -> Forall3 P l m n -> Forall3 P (x :: l) (y :: m) (z :: n).

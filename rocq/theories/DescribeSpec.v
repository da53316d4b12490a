(** What the markdown of objects, states and runs should hold. *)
From Coq Require Import Ascii String List Bool Arith ZArith.
From Verif Require Import Base TableModel DescribeModel.
From Verif Require AnnotationModel DocstringSpec DocxModel DocxSpec.
Import ListNotations.
Local Open Scope string_scope.
Local Open Scope list_scope.
Local Open Scope nat_scope.

(** How many, and of what. *)
Inductive counted (items : list value) : string -> Prop :=
| One_class c : (forall v, In v items -> class_name v = c) -> List.length items = 1 -> counted items ("1 " ++ c)%string
| One_class_plural c : (forall v, In v items -> class_name v = c) -> 1 < List.length items ->
    counted items (nat_str (List.length items) ++ " " ++ c ++ "s")%string
| Classes names : NoDup names -> 1 < List.length names -> (forall c, In c names <-> exists v, In v items /\ class_name v = c) ->
    counted items (nat_str (List.length items) ++ " [" ++ String.concat ", " names ++ "]")%string.
(** The text of a value. *)
Inductive printed : value -> string -> Prop :=
| P_number c p : printed (Number c p) p
| P_no_text : printed (Text "") "no value"
| P_text s : s <> "" -> printed (Text s) s
| P_empty c : printed (Sequence c []) ("empty " ++ c)
| P_sequence c items s : counted items s -> printed (Sequence c items) s
| P_dictionary items s : counted items s -> printed (Dictionary items) s
| P_none : printed Nothing " - "
| P_named c n : n <> "" -> printed (Object c (Some n)) n
| P_unnamed c n : n = None \/ n = Some "" -> printed (Object c n) "unnamed".

(** Texts longer than 25 characters are cut. *)
Definition cut (s : string) : string := if String.length s <=? 25 then s else (String.substring 0 25 s ++ "...")%string.
(** The text of a table. *)
Definition row_text (cells : list string) : string :=
  ("|" ++ String.concat "" (map (fun c => " " ++ c ++ " |") cells) ++ newline)%string.
Definition table_text (titles : list string) (rows : list (list string)) : string :=
  String.concat "" (row_text titles :: row_text (map (fun _ => "------") titles) :: map (fun r => row_text (map cut r)) rows).

(** Identifiers of python *)
Definition identifier (s : string) : Prop :=
  s <> "" /\ forall c, In c (list_ascii_of_string s) ->
    In c (list_ascii_of_string "abcdefghijklmnopqrstuvwxyzABCDEFGHIJKLMNOPQRSTUVWXYZ0123456789_").
(** Texts that can stand in a cell. *)
Definition cell_text (s : string) : Prop :=
  s <> "" /\ ~ In "|"%char (AnnotationModel.chars s) /\ ~ In AnnotationModel.newline (AnnotationModel.chars s)
  /\ ~ DocstringSpec.occurs DocxSpec.dashes (AnnotationModel.chars s).
Definition cell (s : string) : AnnotationModel.str := AnnotationModel.chars (" " ++ cut s ++ " ").

(** Keys in the order they come first, and their last values. *)
Fixpoint firsts (l : list nat) : list nat :=
  match l with [] => [] | x :: l => x :: filter (fun y => negb (Nat.eqb x y)) (firsts l) end.
Definition last_value (l : list (nat * Z)) (b : nat) (m : Z) : Prop :=
  exists l1 l2, l = l1 ++ (b, m) :: l2 /\ ~ In b (map fst l2).

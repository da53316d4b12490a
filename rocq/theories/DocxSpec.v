(** What documents made from markdown should hold. *)
From Coq Require Import Ascii String List Bool Arith.
From Verif Require Import Base AnnotationModel DocstringSpec DocxModel.
Import ListNotations.
Local Open Scope char_scope.
Local Open Scope list_scope.
Local Open Scope nat_scope.

(** What a regular expression describes. *)
Inductive described : re -> str -> Prop :=
| In_empty : described Empty []
| In_one f c : f c = true -> described (One f) [c]
| In_seq a b s t : described a s -> described b t -> described (Seq a b) (s ++ t)
| In_left a b s : described a s -> described (Alt a b) s
| In_right a b s : described b s -> described (Alt a b) s
| In_none a : described (Star a) []
| In_more a s t : described a s -> described (Star a) t -> described (Star a) (s ++ t).

(** A markdown text: titles, lines, rows of tables with the rules below their heads, and blank lines. *)
Inductive block := Title (level : nat) (text : str) | Line (text : str) | Row (cells : list str) | Rule (columns : nat) | Blank.
Definition line_of (b : block) : str :=
  match b with
  | Title n t => repeat "#" n ++ " " :: t
  | Line t => t
  | Row cells => "|" :: List.concat (map (fun c => c ++ ["|"]) cells)
  | Rule n => List.concat (repeat (chars "| ------ ") n) ++ ["|"]
  | Blank => []
  end.
Definition markdown (bs : list block) : str := join [newline] (map line_of bs).

Definition tidy (s : str) : Prop :=
  s <> [] /\ ~ In newline s /\ (forall c t, s = c :: t -> ~ white c) /\ (forall c t, s = t ++ [c] -> ~ white c).
Definition dashes : str := chars "---".
(** Blocks that are read as they are meant. *)
Definition ordinary (b : block) : Prop :=
  match b with
  | Title n t => 0 < n /\ tidy t /\ ~ In "#" t
  | Line t => tidy t /\ ~ occurs dashes t /\ (forall r, t <> "#" :: r) /\ (forall r, t <> "|" :: r)
  | Row cells => Forall (fun c => c <> [] /\ ~ In "|" c /\ ~ In newline c) cells /\ cells <> [] /\ ~ occurs dashes (line_of b)
                 /\ Exists (fun cell => exists c, In c cell /\ ~ white c /\ c <> "-") cells
  | Rule n => 0 < n
  | Blank => True
  end.

(** What a block should be in the document, but for the level of titles. *)
Definition body (b : block) : list item :=
  match b with
  | Title _ t => [DHeading t 0]
  | Line t => [DParagraph t]
  | Row cells => [DTable [cells]]
  | Rule _ | Blank => []
  end.
Definition contents (b : block) : list item :=
  match b with Title n t => [DHeading (" " :: t) n] | _ => [] end.

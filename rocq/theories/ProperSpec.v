(** What the check of docstrings should say, without the code. *)
From Coq Require Import Ascii String List Bool.
From Verif Require Import Base AnnotationModel.
Import ListNotations.

(** The first documented argument that is not right, what comes before being right: what its annotation gives *)
Inductive first_wrong (annotations : str -> option (res unit)) : list str -> option exn -> Prop :=
| wrong_unknown n names : annotations n = None -> first_wrong annotations (n :: names) None
| wrong_annotation n names e : annotations n = Some (Err e) -> first_wrong annotations (n :: names) (Some e)
| wrong_later n names w : annotations n = Some (Ok tt) -> first_wrong annotations names w -> first_wrong annotations (n :: names) w.

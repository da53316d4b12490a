(** Vocabulary for pretty annotations. *)
From Coq Require Import Ascii String List.
From Verif Require Import AnnotationModel.
Import ListNotations.
Local Open Scope char_scope.
Local Open Scope list_scope.

(** an annotation with its classes given other names *)
Fixpoint rename (f : str -> str) (a : ann) : ann :=
  match a with
  | Class n => Class (f n)
  | App h args => App h (map (rename f) args)
  | Repeat x => Repeat (rename f x)
  | a => a
  end.
(** the full names of the classes of an annotation *)
Fixpoint class_names (a : ann) : list str :=
  match a with
  | Class n => [n]
  | App _ args => flat_map class_names args
  | Repeat x => class_names x
  | _ => []
  end.
(** [in_module n m s]: [n] is the class [s] of the module [m] *)
Definition in_module (n m s : str) : Prop := n = m ++ "." :: s /\ ~ In "." s.
(** builtins, classes, and typings made of them, but for tuples of any length *)
Inductive ordinary : ann -> Prop :=
| ord_builtin b : ordinary (Builtin b)
| ord_class n : ordinary (Class n)
| ord_type : ordinary BareType
| ord_app h args : Forall ordinary args -> ordinary (App h args).

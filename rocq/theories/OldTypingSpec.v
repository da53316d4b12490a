(** Typings that deserialize_typing is able to read. *)
From Coq Require Import Ascii String List Bool Arith.
From Verif Require Import Base AnnotationModel.
Import ListNotations.
Open Scope char_scope.
Open Scope list_scope.

(** Names that stand for something else than a class of that name. *)
Definition reserved : list str :=
  map chars ["typing.Any"; "typing.Type"; "builtins.int"; "builtins.float"; "builtins.str"; "builtins.bool";
             "dessia_common.typings.MethodType"; "dessia_common.typings.ClassMethodType"; "..."]%string.

(** The full name of a class: one can import it, it has a dot, no bracket and no comma. *)
Record class_name (importable : str -> bool) (s : str) : Prop := {
  cn_import : importable s = true;
  cn_dot : has "." s = true;
  cn_open : has "[" s = false;
  cn_close : has "]" s = false;
  cn_comma : has "," s = false;
  cn_reserved : ~ In s reserved;
  cn_builtins : starts_with (chars "__builtins__.") s = false }.

(** What comes back: builtins and classes alone, one class in a list, a tuple or InstanceOf, two
    in a dictionary, and, of these, what has brackets in lists, tuples and iterators. *)
Inductive readable (importable : str -> bool) : ann -> Prop :=
| r_builtin b : readable importable (Builtin b)
| r_type : readable importable BareType
| r_class s : class_name importable s -> readable importable (Class s)
| r_one h s : In h [HList; HTuple; HInstanceOf] -> class_name importable s ->
    readable importable (App h [Class s])
| r_dict s t : class_name importable s -> class_name importable t ->
    readable importable (App HDict [Class s; Class t])
| r_nested h k l : In h [HList; HTuple; HIterator] -> readable importable (App k l) ->
    readable importable (App h [App k l]).

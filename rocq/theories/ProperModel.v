(** Model of the check of docstrings (/repo/dessia_common/schemas/core.py:1921-1939), over the reading of docstrings of
    DocstringModel. *)
From Coq Require Import Ascii String List Bool.
From Verif Require Import Base AnnotationModel DocstringModel.
Import ListNotations.

(** What an element is, for inspect *)
Inductive element := IsClass | IsMethod | IsFunction | IsOther.

(** _check_docstring, schemas/core.py:1921-1939.  [hints] is what get_type_hints gives: the serialization of the annotation
    of each argument, or an exception. *)
Definition check_docstring (kind : element) (docstring : option str) (hints : res (str -> option (res unit))) : res bool :=
  match docstring with
  | None => Ok false
  | Some s =>
    match kind with
    | IsOther => Err NotImplementedError
    | _ =>
      let* annotations := hints in
      match parse_docstring annotations (Some s) with
      | Ok _ => Ok true
      | Err TypeError => Ok false
      | Err e => Err e
      end
    end
  end.

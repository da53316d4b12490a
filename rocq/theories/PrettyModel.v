(** Model of pretty annotations: pretty_annotation of /repo/dessia_common/schemas/core.py. *)
From Coq Require Import Ascii String List Bool Arith.
From Verif Require Import Base AnnotationModel.
Import ListNotations.
Local Open Scope char_scope.
Local Open Scope list_scope.
Local Open Scope nat_scope.

(** [annotation.__name__] of a class given by its full name: what comes after the last dot *)
Fixpoint own_name (s : str) : str :=
  match s with
  | [] => []
  | c :: s' => if has "." (c :: s') then own_name s' else c :: s'
  end.

(** [get_schema(annotation).pretty_annotation], schemas/core.py:522-525, 626-635, 718-721, 841-844, 897-900, 946-949,
    998-1001, 1103-1108, 1639-1642, 1755-1759, 1832-1834 *)
Fixpoint pretty (a : ann) : res (option str) :=
  match a with
  | Builtin b => Ok (Some (builtin_name b))
  | Class name => Ok (Some (own_name name))
  | AnyType => Ok (Some (chars "typing.Any"))
  | NoneValue => Ok None
  | BareType => Ok (Some (chars "Type"))
  | NoneType | TypeVariable _ => Ok (Some (chars "typing.Type"))
  | App h args =>
      if head_beq h HSubclass then Err NotImplementedError
      else if head_beq h HUnion && union_is_default_value args then
        match args with first :: _ => pretty first | [] => Err IndexError end
      else match args with
      | [] => Ok (Some (head_name h))
      | _ =>
          let* _ := mapM get_schema args in
          let* parts := map_res pretty args in
          let* parts := mapM string_of parts in
          Ok (Some (head_name h ++ "[" :: join (chars ", ") parts ++ ["]"]))
      end
  | Repeat x =>
      let* _ := get_schema x in
      let* s := pretty x in
      let s := match s with Some s => s | None => chars "None" end in
      Ok (Some (chars "Tuple[" ++ s ++ chars ", ...]"))
  | Enum values => Ok (Some (chars "Literal['" ++ join (chars "', '") values ++ chars "']"))
  end.

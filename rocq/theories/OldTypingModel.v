(** Model of the reading of typings from texts (dessia_common/utils/types.py:134-232). *)
From Coq Require Import Ascii String List Bool Arith.
From Verif Require Import Base AnnotationModel.
Import ListNotations.
Open Scope char_scope.
Open Scope list_scope.
Open Scope nat_scope.

(** [s.split(', ')] *)
Fixpoint split_comma (s : str) : list str :=
  match s with
  | [] => [[]]
  | c :: s' =>
    match s' with
    | [] => [[c]]
    | d :: s'' =>
      if Ascii.eqb c "," && Ascii.eqb d " " then [] :: split_comma s''
      else match split_comma s' with p :: ps => (c :: p) :: ps | [] => [[c]] end
    end
  end.

(** The names dealt with before any other (types.py:147-162 and 204-232): builtins, files,
    methods, which have no argument then, and Type. *)
Definition special_names : list (str * ann) :=
  [(chars "float", Builtin Float); (chars "builtins.float", Builtin Float);
   (chars "int", Builtin Int); (chars "builtins.int", Builtin Int);
   (chars "str", Builtin Str); (chars "builtins.str", Builtin Str);
   (chars "bool", Builtin Bool); (chars "builtins.bool", Builtin Bool);
   (chars "dessia_common.files.StringFile", Class (chars "dessia_common.files.StringFile"));
   (chars "dessia_common.files.BinaryFile", Class (chars "dessia_common.files.BinaryFile"));
   (chars "dessia_common.typings.MethodType", App HMethodType []);
   (chars "dessia_common.typings.ClassMethodType", App HClassMethodType []);
   (chars "Type", BareType)].

(** [TYPING_FROM_SERIALIZED_NAME], types.py:144 *)
Definition typing_from_serialized_name : list (str * head) :=
  [(chars "List", HList); (chars "Tuple", HTuple); (chars "Iterator", HIterator); (chars "Dict", HDict)].

(** Builtins by their module *)
Definition builtin_names : list (str * ann) :=
  [(chars "builtins.int", Builtin Int); (chars "builtins.float", Builtin Float);
   (chars "builtins.str", Builtin Str); (chars "builtins.bool", Builtin Bool)].

Section Deserialize.
(** Full names Python can import as a class *)
Variable importable : str -> bool.

(** get_python_class_from_class_name, helpers.py:65-80 (see [class_from_name]).  A module that
    cannot be imported and a name it does not have are not told apart. *)
Definition python_class (s : str) : res ann :=
  match lookup s builtin_names with
  | Some a => Ok a
  | None => class_from_name importable s
  end.

(** type_from_argname, types.py:134-141 *)
Definition type_from_argname (s : str) : res ann :=
  match s with
  | [] => Ok AnyType
  | _ =>
    if str_eqb s (chars "__builtins__") then Err IndexError
    else
      let rest := skipn 13 s in
      if starts_with (chars "__builtins__.") s && negb (has "." rest)
      then python_class (chars "builtins." ++ rest)
      else python_class s
  end.

(** deserialize_tuple_typing, types.py:187-201 *)
Definition deserialize_tuple_typing (s : str) : res ann :=
  match split_comma s with
  | first :: ((_ :: _) as others) =>
    if forallb (str_eqb first) others
    then let* a := type_from_argname first in Ok (Repeat a)
    else Err TypeError
  | _ => let* a := type_from_argname s in Ok (App HTuple [a])
  end.

(** types.py:171-183: the text, its part before the first bracket and its arguments, in which
    there is no bracket *)
Definition deserialize_simple (top args s : str) : res ann :=
  if str_eqb top (chars "List") then let* a := type_from_argname args in Ok (App HList [a])
  else if str_eqb top (chars "Tuple") then deserialize_tuple_typing args
  else if str_eqb top (chars "Dict") then
    let l := split_comma args in
    let* k := of_option IndexError (nth_error l 0) in
    let* key := type_from_argname k in
    let* v := of_option IndexError (nth_error l 1) in
    let* value := type_from_argname v in
    Ok (App HDict [key; value])
  else if str_eqb top (chars "InstanceOf") then let* a := type_from_argname args in Ok (App HInstanceOf [a])
  else python_class s.

(** deserialize_typing, types.py:147-184, of a text *)
Fixpoint deserialize_text (fuel : nat) (s : str) : res ann :=
  match fuel with
  | 0 => Err OutOfFuel
  | S fuel =>
    match lookup s special_names with
    | Some a => Ok a
    | None =>
      if has "[" s then
        let top := take_while (fun c => negb (Ascii.eqb c "[")) s in
        let remains := tl (drop_while (fun c => negb (Ascii.eqb c "[")) s) in
        let args := match before_last_close remains with Some b => b | None => remains end in
        if has "[" args then
          let* h := of_option KeyError (lookup top typing_from_serialized_name) in
          let* a := deserialize_text fuel args in
          make h [a]
        else deserialize_simple top args s
      else deserialize_simple s [] s
    end
  end.

(** ...and of anything; None stands for what is no text *)
Definition deserialize_typing (s : option str) : res ann :=
  match s with
  | None => Err NotImplementedError
  | Some s => deserialize_text (S (List.length s)) s
  end.
End Deserialize.

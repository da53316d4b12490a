(** Model of the types written beside values and of the use that is made of them
    (dessia_common/utils/types.py:277-293 and dessia_common/serialization.py:354-369). *)
From Coq Require Import Bool String List.
From Verif Require Import Base.
Import ListNotations.
Open Scope string_scope.
Open Scope list_scope.

(** Types, as recursive_type makes them: a text, a list of types, None, or anything else (an
    attribute [output_type] may hold anything). *)
Inductive type := TText (s : string) | TList (l : list type) | TNone | TOther.

(** What recursive_type looks at in a value (types.py:277-293): the kind of builtin, instances
    of classes that inherit from these builtins (OrderedDict, members of IntEnum), instances of
    DessiaObject classes with the full name of their class and an identity, objects with an
    attribute [output_type], lists and tuples (also of classes that inherit from these), None,
    and anything else (sets, functions, classes, arrays). *)
Inductive value :=
| Bool_ | Int_ | Float_ | Str_ | Dict_
| Inherited
| Object_ (c : string) (n : nat)
| WithOutput (t : type)
| Sequence_ (l : list value)
| None_
| Other.

(** recursive_type, types.py:277-293, with [TYPES_STRINGS[type(obj)]], which has no
    entry for a class that inherits from a builtin.  Values of several kinds (a DessiaObject that
    is a list) are left out, so that the order of tests does not matter. *)
Fixpoint recursive_type (v : value) : res type :=
  match v with
  | Bool_ => Ok (TText "boolean")
  | Int_ => Ok (TText "int")
  | Float_ => Ok (TText "float")
  | Str_ => Ok (TText "str")
  | Dict_ => Ok (TText "dict")
  | Inherited => Err KeyError
  | Object_ c _ => Ok (TText c)
  | WithOutput t => Ok t
  | Sequence_ l => 
    let* ts := (fix each (l : list value) : res (list type) :=
                  match l with
                  | [] => Ok []
                  | x :: l' => let* t := recursive_type x in let* ts := each l' in Ok (t :: ts)
                  end) l in
    Ok (TList ts)
  | None_ => Ok TNone
  | Other => Err NotImplementedError
  end.

(** The values of TYPES_STRINGS, types.py:17. *)
Definition types_strings : list string := ["int"; "float"; "boolean"; "str"; "list"; "tuple"; "dict"].

(** Values as they are in a file (serialization.py:354-369): lists, None and other things. *)
Inductive json := JList (l : list json) | JNone | JData (n : nat).
(** What deserialize_with_type makes of them (serialization.py:354-369): lists, instances of a
    class, or the value unchanged. *)
Inductive made := MList (l : list made) | MObject (c : string) (n : nat) | MAsIs (j : json).

Section Deserialize.
(** get_python_class_from_class_name: whether what the name leads to is a class *)
Variable is_class : string -> res bool.
(** [class_.dict_to_object(value)]: the object *)
Variable dict_to_object : string -> json -> res nat.
(** iterating over something that is no list *)
Variable iterate : json -> res (list json).

(** deserialize_with_type, serialization.py:354-369.  [literal_eval] takes literals only: for
    the name of a builtin it raises ValueError. *)
Fixpoint deserialize_with_type (t : type) (j : json) : res made :=
  match t with
  | TText s =>
    if memb String.eqb s types_strings then Err ValueError
    else
      let* b := is_class s in
      if b then let* n := dict_to_object s j in Ok (MObject s n) else Err NotImplementedError
  | TList ts =>
    let* l := match j with JList l => Ok l | _ => iterate j end in
    let* r := (fix zip (ts : list type) (l : list json) : res (list made) :=
                 match ts, l with
                 | x :: ts', y :: l' =>
                   let* z := deserialize_with_type x y in let* zs := zip ts' l' in Ok (z :: zs)
                 | _, _ => Ok []
                 end) ts l in
    Ok (MList r)
  | TNone => Ok (MAsIs j)
  | TOther => Err NotImplementedError
  end.
End Deserialize.

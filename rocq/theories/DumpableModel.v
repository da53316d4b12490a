(** Model of is_serializable (dessia_common/serialization.py:787-804) and is_jsonable (utils/types.py:46-53). *)
From Coq Require Import ZArith Bool String Ascii List.
From Verif Require Import Base PyValue SerialModel.
Import ListNotations.
Open Scope string_scope.
Open Scope list_scope.

Section Dumpable.
(** as in [SerialModel] *)
Variable non_serializable : string -> list string.
Variable jsonable : val -> bool.
Variable annotation_of_class : string -> string.
(** keys that are not strings nor integers: whether orjson writes them as keys, and is_serializable on them *)
Variable other_dumped : nat -> bool.
Variable other_serializable : nat -> res bool.

(** what orjson writes as a key, with OPT_NON_STR_KEYS *)
Definition key_dumped (k : key) : bool :=
  match k with KStr s => jsonable (VStr s) | KInt z => jsonable (VInt z) | KOther n => other_dumped n end.
(** is_serializable on a key *)
Definition key_serializable (k : key) : res bool :=
  match k with KStr s => Ok (jsonable (VStr s)) | KInt z => Ok (jsonable (VInt z)) | KOther n => other_serializable n end.

(** is_jsonable, utils/types.py:46-53.  The depth orjson goes to is not limited. *)
Fixpoint is_jsonable (v : val) : bool :=
  match v with
  | VList l | VTuple l => forallb is_jsonable l
  | VDict d => forallb (fun kv => key_dumped (fst kv) && is_jsonable (snd kv)) d
  | VObj _ _ | VClass _ _ => false
  | _ => jsonable v
  end.

Section Every.
Variable f : val -> res bool.
(** the loops of is_serializable, serialization.py:794-803 *)
Fixpoint every_item (d : list (key * val)) : res bool :=
  match d with
  | [] => Ok true
  | (k, x) :: d' =>
    let* a := key_serializable k in
    if negb a then Ok false
    else let* b := f x in
         if negb b then Ok false else every_item d'
  end.
Fixpoint every (l : list val) : res bool :=
  match l with
  | [] => Ok true
  | x :: l' => let* b := f x in if negb b then Ok false else every l'
  end.
End Every.

(** is_serializable, serialization.py:787-804 *)
Fixpoint is_serializable (v : val) : res bool :=
  if is_jsonable v then Ok true
  else match v with
  | VObj c d => let* dict := serialize non_serializable jsonable annotation_of_class (VObj c d) in Ok (is_jsonable dict)
  | VDict d => every_item is_serializable d
  | VList l | VTuple l => every is_serializable l
  | _ => Ok false
  end.
End Dumpable.

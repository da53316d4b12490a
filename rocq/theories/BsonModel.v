(** Model of the check of BSON documents (/repo/dessia_common/utils/types.py) and of
    stringify_dict_keys (/repo/dessia_common/core.py). *)
From Coq Require Import ZArith String Ascii List Bool DecimalString.
From Verif Require Import Base.
Import ListNotations.
Open Scope string_scope.
Open Scope list_scope.

(** Keys of dictionaries.  A float is given by what [str] makes of it, so are the keys of
    other types (None, tuples, objects). *)
Inductive bkey := KStr (s : string) | KInt (z : Z) | KBool (b : bool) | KFloat (repr : string) | KOther (repr : string).

(** Sequences: lists, tuples and instances of other subclasses of Sequence. *)
Inductive seq_kind := List | Tuple | Sequence.

(** Values.  [DOther]: anything else (objects, functions, sets, bytes). *)
Inductive doc :=
| DNone
| DBool (b : bool)
| DInt (z : Z)
| DFloat (repr : string)
| DStr (s : string)
| DSeq (k : seq_kind) (l : list doc)
| DDict (d : list (bkey * doc))
| DOther.

(** ['.' in k] *)
Fixpoint has_dot (s : string) : bool :=
  match s with EmptyString => false | String a s' => Ascii.eqb a "." || has_dot s' end.

(** The first invalid item of a loop *)
Section Loop.
Context {A : Type}.
Variable check : A -> bool * string.
Fixpoint first_invalid (l : list A) : bool * string :=
  match l with
  | [] => (true, "")
  | x :: l' => let (valid, hint) := check x in if valid then first_invalid l' else (false, hint)
  end.
End Loop.

(** The check of a key in is_bson_valid, utils/types.py:245-257.  Hints are shortened. *)
Definition key_valid (allow_nonstring_keys : bool) (k : bkey) : bool * string :=
  match k with
  | KStr s => if has_dot s then (false, "dot") else (true, "")
  | KFloat _ => (false, "float key")
  | KInt _ | KBool _ => if allow_nonstring_keys then (true, "") else (false, "nonstring key")
  | KOther _ => (false, "unsupported key")
  end.

(** is_bson_valid, utils/types.py:235-271 *)
Fixpoint is_bson_valid (allow_nonstring_keys : bool) (v : doc) {struct v} : bool * string :=
  match v with
  | DBool _ | DInt _ | DFloat _ | DStr _ => (true, "")
  | DNone => (true, "")
  | DDict d =>
      first_invalid (fun kv => let (valid, hint) := key_valid allow_nonstring_keys (fst kv) in
                               if valid then is_bson_valid allow_nonstring_keys (snd kv) else (false, hint)) d
  | DSeq _ l => first_invalid (is_bson_valid allow_nonstring_keys) l
  | DOther => (false, "unrecognized")
  end.

(** [str(key)] *)
Definition str_key (k : bkey) : string :=
  match k with
  | KStr s => s
  | KInt z => NilZero.string_of_int (Z.to_int z)
  | KBool b => if b then "True" else "False"
  | KFloat s | KOther s => s
  end.

(** [new_obj[key] = value], for string keys *)
Fixpoint set_item (k : string) (v : doc) (d : list (bkey * doc)) : list (bkey * doc) :=
  match d with
  | [] => [(KStr k, v)]
  | (j, x) :: d' => if match j with KStr s => String.eqb k s | _ => false end then (j, v) :: d' else (j, x) :: set_item k v d'
  end.

(** stringify_dict_keys, core.py:1104-1117 *)
Fixpoint stringify_dict_keys (obj : doc) : doc :=
  match obj with
  | DSeq List l | DSeq Tuple l => DSeq List (map stringify_dict_keys l)
  | DDict d =>
      DDict (fold_left (fun new_obj kv => set_item (str_key (fst kv)) (snd kv) new_obj)
                       (map (fun kv => (fst kv, stringify_dict_keys (snd kv))) d) [])
  | _ => obj
  end.

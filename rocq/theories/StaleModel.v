(** Model of the cache of arguments of constructors used by copies (/repo/dessia_common/core.py:52, 330-346).

    Values are opaque and have no __copy__; constructors keep each argument in the attribute of the same name, and take no
    star arguments. The same cache is used by __deepcopy__, 348-362, in the same way. *)
From Coq Require Import List Bool String.
From Verif Require Import Base.
Import ListNotations.

Section Stale.
Variable value : Type.

(** A class: its full_classname, the arguments of __init__ but self, with their default values *)
Record class_ := { full_classname : string; arguments : list (string * option value) }.
Record obj := { class_of : class_; attributes : list (string * value) }.
(** _fullargsspec_cache, core.py:52: names of arguments by name of class *)
Definition cache := list (string * list string).

Fixpoint lookup {A} (n : string) (d : list (string * A)) : option A :=
  match d with [] => None | (m, x) :: d' => if String.eqb n m then Some x else lookup n d' end.

(** core.py:332-337: the arguments of the class in the cache, where they are written the first time *)
Definition class_argspec (k : cache) (c : class_) : list string * cache :=
  match lookup (full_classname c) k with
  | Some args => (args, k)
  | None => (map fst (arguments c), k ++ [(full_classname c, map fst (arguments c))])
  end.

(** self.__class__( **dict_), core.py:346: TypeError on an unknown argument or a missing one *)
Definition construct (c : class_) (dict_ : list (string * value)) : res obj :=
  if forallb (fun nv => existsb (String.eqb (fst nv)) (map fst (arguments c))) dict_ then
    let* l := mapM (fun nd => match lookup (fst nd) dict_ with
                              | Some v => Ok (fst nd, v)
                              | None => match snd nd with Some v => Ok (fst nd, v) | None => Err TypeError end
                              end) (arguments c) in
    Ok {| class_of := c; attributes := l |}
  else Err TypeError.

(** __copy__, core.py:330-346, with the cache after it *)
Definition copy (k : cache) (o : obj) : res obj * cache :=
  let (args, k') := class_argspec k (class_of o) in
  ((let* dict_ := mapM (fun arg => let* v := of_option KeyError (lookup arg (attributes o)) in Ok (arg, v)) args in
    construct (class_of o) dict_), k').

(** The cache after copies of the objects of a list, one after another, from the start of the program *)
Definition after (history : list obj) : cache := fold_left (fun k o => snd (copy k o)) history [].
End Stale.

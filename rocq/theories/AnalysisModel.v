(** Model of the analysis of the pointers of an object (/repo/dessia_common/serialization.py:734-784). *)
From Coq Require Import List String Bool Arith.
From Verif Require Import Base.
Import ListNotations.
Local Open Scope string_scope.
Local Open Scope list_scope.

(** Dictionaries, in order of insertion. *)
Fixpoint dict_get {K A} (eqb : K -> K -> bool) (k : K) (d : list (K * A)) : option A :=
  match d with [] => None | (j, a) :: d => if eqb k j then Some a else dict_get eqb k d end.
Fixpoint dict_set {K A} (eqb : K -> K -> bool) (k : K) (a : A) (d : list (K * A)) : list (K * A) :=
  match d with [] => [(k, a)] | (j, b) :: d => if eqb k j then (j, a) :: d else (j, b) :: dict_set eqb k a d end.
(** The class of an element, or None when it cannot be reached. *)
Definition oeqb (a b : option string) : bool :=
  match a, b with Some s, Some t => String.eqb s t | None, None => true | _, _ => false end.

Record state := State { class_number : list (string * nat); composed_by : list (option string * list (string * nat)); class_from_path : list (string * string) }.

Section Analysis.
(** [full_classname(get_in_object_from_path(obj, path))]; names of classes are not empty. *)
Variable class_at : string -> res string.

(** The class of a path and the memory of classes, serialization.py:752-759, 764-771 *)
Definition find_class (path : string) (m : list (string * string)) : res (option string * list (string * string)) :=
  match dict_get String.eqb path m with
  | Some c => Ok (Some c, m)
  | None =>
    match class_at path with
    | Ok c => Ok (Some c, dict_set String.eqb path c m)
    | Err AttributeError => Ok (None, m)
    | Err e => Err e
    end
  end.
(** serialization.py:761-762 *)
Definition count_class (c : option string) (d : list (string * nat)) : list (string * nat) :=
  match c with
  | Some c => dict_set String.eqb c (match dict_get String.eqb c d with Some n => n | None => 0 end + 1) d
  | None => d
  end.
(** serialization.py:773-780 *)
Definition compose (c1 c2 : option string) (d : list (option string * list (string * nat))) : res (list (option string * list (string * nat))) :=
  if oeqb c1 c2 then Ok d
  else
    let inner := match dict_get oeqb c2 d with Some i => i | None => [] end in
    match c1 with
    | None => Err KeyError
    | Some s =>
      match dict_get String.eqb s inner with
      | None => Ok (dict_set oeqb c2 (dict_set String.eqb s 1 inner) d)
      | Some n => Ok (dict_set oeqb c2 (dict_set String.eqb s (n + 1) inner) d)
      end
    end.
(** One edge of the graph, serialization.py:750-780 *)
Definition edge_step (s : state) (e : string * string) : res state :=
  let (path1, path2) := e in
  if String.eqb path1 "#" then Ok s
  else
    let* r2 := find_class path2 (class_from_path s) in
    let numbers := count_class (fst r2) (class_number s) in
    let* r1 := find_class path1 (snd r2) in
    let* composed := compose (fst r1) (fst r2) (composed_by s) in
    Ok (State numbers composed (snd r1)).
(** pointers_analysis, of the edges of the pointer graph of the object (DerefModel.v), which are given. *)
Definition pointers_analysis (edges : list (string * string)) : res (list (string * nat) * list (option string * list (string * nat))) :=
  let* s := foldM edge_step edges (State [] [] []) in
  Ok (class_number s, composed_by s).
End Analysis.

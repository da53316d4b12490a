(** Model of DessiaFilter and FiltersList (dessia_common/core.py:821-1101). *)
From Coq Require Import String QArith List Bool.
From Verif Require Import Base.
Import ListNotations.
Open Scope string_scope.

Section Filters.
(** Objects are abstract; [get o attribute] stands for
    [get_in_object_from_path(o, f'#/{attribute}')] (utils/helpers.py:148-176),
    which may raise.  Attribute values and bounds are numbers, read as
    rationals (bound: float, core.py:831-832). *)
Variable O : Type.
Variable get : O -> string -> res Q.

(** core.py:851-855 *)
Record dfilter := mkFilter { attribute : string; comparison_operator : string; bound : Q }.

(** core.py:847-849, [_REAL_OPERATORS] and python's [operator] functions. *)
Definition real_operators (s : string) : option (Q -> Q -> bool) :=
  if s =? ">" then Some (fun a b => negb (Qle_bool a b))
  else if s =? "<" then Some (fun a b => negb (Qle_bool b a))
  else if s =? ">=" then Some (fun a b => Qle_bool b a)
  else if s =? "<=" then Some (fun a b => Qle_bool a b)
  else if s =? "==" then Some (fun a b => Qeq_bool a b)
  else if s =? "!=" then Some (fun a b => negb (Qeq_bool a b))
  else if s =? "gt" then Some (fun a b => negb (Qle_bool a b))
  else if s =? "lt" then Some (fun a b => negb (Qle_bool b a))
  else if s =? "ge" then Some (fun a b => Qle_bool b a)
  else if s =? "le" then Some (fun a b => Qle_bool a b)
  else if s =? "eq" then Some (fun a b => Qeq_bool a b)
  else if s =? "ne" then Some (fun a b => negb (Qeq_bool a b))
  else if s =? "gte" then Some (fun a b => Qle_bool b a)
  else if s =? "lte" then Some (fun a b => Qle_bool a b)
  else None.

(** core.py:880-885: one element of the generator of [_to_lambda]. The operator
    is looked up before the attribute is read. *)
Definition filter_one (f : dfilter) (o : O) : res bool :=
  let* op := of_option KeyError (real_operators (comparison_operator f)) in
  let* v := get o (attribute f) in
  Ok (op v (bound f)).

(** core.py:887-905 *)
Definition filter_get_booleans_index (f : dfilter) (values : list O) : res (list bool) :=
  mapM (filter_one f) values.

(** core.py:907-928 *)
Definition booleanlist_to_indexlist (booleans : list bool) : list nat :=
  compress (seq 0 (length booleans)) booleans.

(** core.py:930-954 *)
Definition filter_apply (values : list O) (booleans : list bool) : list O :=
  compress values booleans.

(** [zip( *lists )]: columns, as many as the shortest list; no list, no column. *)
Fixpoint zip_two (column : list bool) (rest : list (list bool)) : list (list bool) :=
  match column, rest with
  | b :: c', r :: rest' => (b :: r) :: zip_two c' rest'
  | _, _ => []
  end.
Fixpoint zip_star (lists : list (list bool)) : list (list bool) :=
  match lists with
  | [] => []
  | [l] => map (fun b => [b]) l
  | l :: ls => zip_two l (zip_star ls)
  end.

(** [sum] of a tuple of booleans *)
Definition sum_bools (l : list bool) : nat := fold_right (fun b n => Nat.b2n b + n)%nat 0%nat l.

(** core.py:1024-1049 *)
Definition combine_booleans_lists (lists : list (list bool)) (logical_operator : string)
  : res (list bool) :=
  if logical_operator =? "and" then Ok (map (forallb (fun b => b)) (zip_star lists))
  else if logical_operator =? "or" then Ok (map (existsb (fun b => b)) (zip_star lists))
  else if logical_operator =? "xor" then
    Ok (map (fun t => negb (Nat.eqb (sum_bools t) 0)) (zip_star lists))
  else Err NotImplementedError.

(** core.py:975-978 *)
Record filters_list := mkFiltersList { filters : list dfilter; logical_operator : string }.

(** core.py:1051-1073 *)
Definition get_booleans_index (fl : filters_list) (objects : list O) : res (list bool) :=
  let* lists := mapM (fun f => filter_get_booleans_index f objects) (filters fl) in
  combine_booleans_lists lists (logical_operator fl).

(** core.py:1075-1101 *)
Definition filters_list_apply (fl : filters_list) (objects : list O) : res (list O) :=
  let* booleans := get_booleans_index fl objects in
  Ok (filter_apply objects booleans).

End Filters.

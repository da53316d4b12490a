(** Model of the reading of docstrings and of pretty names
    (/repo/dessia_common/schemas/core.py, /repo/dessia_common/utils/helpers.py). *)
From Coq Require Import Ascii String List Bool Arith.
From Verif Require Import Base AnnotationModel.
Import ListNotations.
Local Open Scope char_scope.
Local Open Scope list_scope.
Local Open Scope nat_scope.

(** [s.split(sep)] for a separator that is not empty.  [cur] is what was read since the last
    separator, [skip] counts the characters of a separator that are still to be passed. *)
Fixpoint split_go (sep s cur : str) (skip : nat) : list str :=
  match s with
  | [] => [cur]
  | c :: s' =>
      match skip with
      | S k => split_go sep s' cur k
      | 0 => if starts_with sep s then cur :: split_go sep s' [] (List.length sep - 1)
             else split_go sep s' (cur ++ [c]) 0
      end
  end.
Definition split_str (sep s : str) : list str := split_go sep s [] 0.

(** [p in s] *)
Fixpoint contains (p s : str) : bool :=
  starts_with p s || match s with [] => false | _ :: s' => contains p s' end.

(** [s.strip()] for the ASCII characters that str.isspace holds for. *)
Definition is_space (c : ascii) : bool :=
  let n := nat_of_ascii c in ((9 <=? n) && (n <=? 13)) || ((28 <=? n) && (n <=? 32)).
Definition lstrip (s : str) : str := drop_while is_space s.
Definition strip (s : str) : str := rev (lstrip (rev (lstrip s))).

(** prettyname, utils/helpers.py:41-53, for names of ASCII characters. *)
Definition upper (c : ascii) : ascii :=
  let n := nat_of_ascii c in if (97 <=? n) && (n <=? 122) then ascii_of_nat (n - 32) else c.
Definition pretty_word (w : str) : str :=
  match w with c :: _ :: _ => upper c :: tl w | _ => w end.
Definition prettyname (name : str) : str := join [" "] (map pretty_word (split_on "_" name)).

Section Parse.
(** serialize_annotation of the annotation of an argument; None when there is no such argument. *)
Variable annotations : str -> option (res unit).

(** parse_attribute, schemas/core.py:1910-1918.  Only the description is kept. *)
Definition parse_attribute (param : str) : res (str * str) :=
  let param := if contains (chars ":type") param then hd [] (split_str (chars ":type ") param) else param in
  if has ":" param then
    let argname := take_while (fun c => negb (Ascii.eqb c ":")) param in
    let argdesc := tl (drop_while (fun c => negb (Ascii.eqb c ":")) param) in
    let* serialized := of_option KeyError (annotations argname) in
    let* _ := serialized in
    Ok (argname, strip argdesc)
  else Err ValueError.

(** dictionaries by name *)
Fixpoint set_doc (k v : str) (d : list (str * str)) : list (str * str) :=
  match d with
  | [] => [(k, v)]
  | (j, x) :: d' => if str_eqb k j then (j, v) :: d' else (j, x) :: set_doc k v d'
  end.

(** parse_docstring, schemas/core.py:1894-1907.  None is for an object without docstring. *)
Definition parse_docstring (docstring : option str) : res (str * list (str * str)) :=
  match docstring with
  | None | Some [] => Ok ([], [])
  | Some s =>
      let no_return_docstring := hd [] (split_str (chars ":return:") s) in
      let splitted := split_str (chars ":param ") no_return_docstring in
      let* args := foldM (fun args param =>
                            let* p := parse_attribute param in Ok (set_doc (fst p) (snd p) args)) (tl splitted) [] in
      Ok (strip (hd [] splitted), args)
  end.

(** The docstring of a MemberSchema, schemas/core.py:353-358: a failure is shown, not raised. *)
Definition member_docstring (docstring : option str) : str * list (str * str) :=
  match parse_docstring docstring with
  | Ok p => p
  | Err _ => (chars "Docstring parsing failed", [])
  end.

(** [descriptions.get(n, EMPTY_PARSED_ATTRIBUTE)["desc"]], schemas/core.py:362-363 *)
Definition attribute_description (descriptions : list (str * str)) (n : str) : str :=
  match lookup n descriptions with Some d => d | None => [] end.
End Parse.

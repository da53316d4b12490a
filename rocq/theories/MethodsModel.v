(** Model of the arguments of methods given by forms (/repo/dessia_common/core.py:168-214,
    /repo/dessia_common/schemas/core.py:345-433). *)
From Coq Require Import List String Ascii Bool Arith Decimal DecimalString.
From Verif Require Import Base.
Import ListNotations.
Local Open Scope string_scope.
Local Open Scope list_scope.
Local Open Scope nat_scope.

Section Methods.
(** Annotations, serialized values and values; [deserialize_argument] is any function. *)
Context {A S V : Type}.
Variable deserialize_argument : A -> S -> res V.
(** inspect.getfullargspec: names of positional arguments, the first of which is self or cls unless the method is
    static, and annotations.  Names of keyword only arguments are not in the list. *)
Record argspec := ArgSpec { args : list string; annotations : list (string * A) }.

Fixpoint get {X} (l : list (string * X)) (k : string) : option X :=
  match l with
  | [] => None
  | (k', x) :: l => if (k' =? k)%string then Some x else get l k
  end.
Definition str_nat (n : nat) : string := NilZero.string_of_uint (Nat.to_uint n).

(** The loop of DessiaObject.dict_to_arguments, core.py:202-214; [i] is the number of the first argument.
    The message of a TypeError is left out. *)
Fixpoint collect (annotations : list (string * A)) (dict : list (string * S)) (i : nat) (allowed : list string) : res (list (string * V)) :=
  match allowed with
  | [] => Ok []
  | arg :: allowed =>
    match get dict (str_nat i) with
    | Some value =>
      let* arg_specs := of_option KeyError (get annotations arg) in
      let* v := deserialize_argument arg_specs value in
      let* rest := collect annotations dict (i + 1) allowed in
      Ok ((arg, v) :: rest)
    | None => collect annotations dict (i + 1) allowed
    end
  end.
(** core.py:190-200; [methods] gives the methods of the object, the cache is by full name of class and method. *)
Definition dict_to_arguments (full_classname : string) (methods : list (string * argspec)) (cache : list (string * argspec))
    (dict : list (string * S)) (method : string) : res (list (string * V)) * list (string * argspec) :=
  let name := (full_classname ++ "." ++ method)%string in
  match get cache name with
  | Some specs => (collect (annotations specs) dict 0 (tl (args specs)), cache)
  | None =>
    match get methods method with
    | None => (Err AttributeError, cache)
    | Some specs => (collect (annotations specs) dict 0 (tl (args specs)), (name, specs) :: cache)
    end
  end.

(** schemas/core.py:25 *)
Definition reserved : list string := ["self"; "cls"; "progress_callback"; "return"].
(** The names of the inputs of the form of a method, MemberSchema, schemas/core.py:351, in order. *)
Definition form_attributes (specs : argspec) : list string := filter (fun a => negb (memb String.eqb a reserved)) (args specs).
(** raw_method_schemas, core.py:168-178: [dir] is sorted; a form needs an annotation for each input, schemas/core.py:131-139. *)
Definition starts_underscore (m : string) : bool := match m with String c _ => (c =? "_")%char | EmptyString => false end.
Definition method_form (specs : argspec) : res (list string) :=
  if forallb (fun a => match get (annotations specs) a with Some _ => true | None => false end) (form_attributes specs)
  then Ok (form_attributes specs) else Err ValueError.
Definition method_forms (dir : list string) (allowed : list string) (methods : list (string * argspec)) : res (list (string * list string)) :=
  mapM (fun m => let* specs := of_option AttributeError (get methods m) in let* f := method_form specs in Ok (m, f))
    (filter (fun m => negb (starts_underscore m) && memb String.eqb m allowed) dir).
(** method_dict, core.py:185-188 and default_dict, schemas/core.py:288-295; default values are any. *)
Definition method_dict (default : string -> S) (dir : list string) (allowed : list string) (methods : list (string * argspec)) (m : string) : res (list (string * S)) :=
  let* forms := method_forms dir allowed methods in
  let* f := of_option KeyError (get forms m) in
  Ok (map (fun a => (a, default a)) f).
End Methods.
Arguments argspec : clear implicits.

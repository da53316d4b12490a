(** Model of what is read from signatures: split_default_args and MemberSchema of
    /repo/dessia_common/schemas/core.py, _method_inputs of
    /repo/dessia_common/workflow/blocks.py. *)
From Coq Require Import ZArith String List Bool.
From Verif Require Import Base.
Import ListNotations.
Open Scope string_scope.
Open Scope list_scope.

Section Signature.
(** default values and annotations *)
Variable value annotation : Type.

(** inspect.FullArgSpec: positional arguments and the default values of the last ones, None
    when there are none.  Keyword-only arguments are not looked at by the code. *)
Record argspec := { args : list string; defaults : option (list value) }.

(** [split_argspecs], schemas/core.py:1696-1703 *)
Definition split_argspecs (spec : argspec) : Z * Z :=
  let nargs := (Z.of_nat (List.length (args spec)) - 1)%Z in
  match defaults spec with
  | Some l => (nargs, Z.of_nat (List.length l))
  | None => (nargs, 0%Z)
  end.

(** [argspecs.defaults[i]], None being not subscriptable *)
Definition default_at (spec : argspec) (i : Z) : res value :=
  match defaults spec with None => Err TypeError | Some l => py_get l i end.

(** [RESERVED_ARGNAMES], schemas/core.py:25 *)
Definition RESERVED_ARGNAMES := ["self"; "cls"; "progress_callback"; "return"].

Definition reserved (names : list string) (name : string) : bool := existsb (String.eqb name) names.

(** dictionaries by name *)
Fixpoint set_name (k : string) (v : value) (d : list (string * value)) : list (string * value) :=
  match d with
  | [] => [(k, v)]
  | (j, x) :: d' => if String.eqb k j then (j, v) :: d' else (j, x) :: set_name k v d'
  end.
Fixpoint get_name {A} (k : string) (d : list (string * A)) : option A :=
  match d with
  | [] => None
  | (j, x) :: d' => if String.eqb k j then Some x else get_name k d'
  end.

(** What [arguments] holds: names, or names with their default when merged *)
Inductive argument := Name (n : string) | Pair (n : string) (default : value).

(** the loop of split_default_args *)
Fixpoint split_loop (spec : argspec) (merge : bool) (i : Z) (names : list string)
    (arguments : list argument) (default_arguments : list (string * value)) : res (list argument * list (string * value)) :=
  match names with
  | [] => Ok (arguments, default_arguments)
  | name :: names =>
      let (nargs, ndefault_args) := split_argspecs spec in
      if reserved RESERVED_ARGNAMES name then split_loop spec merge (i + 1) names arguments default_arguments
      else if (nargs - ndefault_args <=? i)%Z then
        let* default_value := default_at spec (ndefault_args - nargs + i) in
        if merge then split_loop spec merge (i + 1) names (arguments ++ [Pair name default_value]) default_arguments
        else split_loop spec merge (i + 1) names arguments (set_name name default_value default_arguments)
      else split_loop spec merge (i + 1) names (arguments ++ [Name name]) default_arguments
  end.

(** [split_default_args], schemas/core.py:1673-1693 *)
Definition split_default_args (spec : argspec) (merge : bool) : res (list argument * list (string * value)) :=
  split_loop spec merge 0 (tl (args spec)) [] [].

(** The attributes of a MemberSchema with their default, schemas/core.py:350-366.  None is
    UNDEFINED.  An attribute without annotation raises (SchemaAttributeCollection, 132-144). *)
Definition schema_attributes (spec : argspec) (annotations : list (string * annotation)) : res (list (string * option value)) :=
  let attribute_names := filter (fun a => negb (reserved RESERVED_ARGNAMES a)) (args spec) in
  let* split := split_default_args spec false in
  mapM (fun n => match get_name n annotations with
                 | Some _ => Ok (n, get_name n (snd split))
                 | None => Err ValueError
                 end) attribute_names.

(** A block input: name, annotation, default *)
Record input := { input_name : string; input_type : annotation; input_default : option value }.

(** the loop of _method_inputs; UntypedArgumentError is a WorkflowError here *)
Fixpoint inputs_loop (spec : argspec) (annotations : list (string * annotation)) (iarg : Z) (names : list string) : res (list input) :=
  match names with
  | [] => Ok []
  | name :: names =>
      let (nargs, ndefault_args) := split_argspecs spec in
      if reserved ["self"; "cls"; "progress_callback"] name then inputs_loop spec annotations (iarg + 1) names
      else
        let* type_ := of_option WorkflowError (get_name name annotations) in
        let* default := if (nargs - ndefault_args <? iarg)%Z
                        then let* d := default_at spec (ndefault_args - nargs + iarg - 1) in Ok (Some d)
                        else Ok None in
        let* rest := inputs_loop spec annotations (iarg + 1) names in
        Ok ({| input_name := name; input_type := type_; input_default := default |} :: rest)
  end.

(** [_method_inputs], workflow/blocks.py:30-49 *)
Definition method_inputs (spec : argspec) (annotations : list (string * annotation)) : res (list input) :=
  inputs_loop spec annotations 0 (args spec).
End Signature.
Arguments args {value}.
Arguments defaults {value}.

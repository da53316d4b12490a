(** Model of /repo/dessia_common/checks.py, of the validity of objects in
    /repo/dessia_common/core.py and of the checks of schemas in
    /repo/dessia_common/schemas/core.py. *)
From Coq Require Import String List Bool Arith.
From Verif Require Import Base.
Import ListNotations.
Open Scope string_scope.
Open Scope list_scope.
Open Scope nat_scope.

(** A check: the level of its class and the name of its class.  Messages are left out. *)
Record check := { level : string; kind : string }.
Definition PassedCheck := {| level := "info"; kind := "PassedCheck" |}.
Definition CheckWarning := {| level := "warning"; kind := "CheckWarning" |}.
Definition Failed (kind : string) := {| level := "error"; kind := kind |}.

(** [LEVEL_TO_INT], checks.py:11 *)
Definition level_to_int (s : string) : res nat :=
  if String.eqb s "debug" then Ok 0 else if String.eqb s "info" then Ok 1
  else if String.eqb s "warning" then Ok 2 else if String.eqb s "error" then Ok 3 else Err KeyError.

(** [CheckList.checks_above_level], checks.py:93-99 *)
Definition checks_above_level (self : list check) (lvl : string) : res (list check) :=
  foldM (fun checks c =>
           let* a := level_to_int (level c) in
           let* b := level_to_int lvl in
           Ok (if b <=? a then checks ++ [c] else checks)) self [].

(** [CheckList.raise_if_above_level], checks.py:101-104 *)
Definition raise_if_above_level (self : list check) (lvl : string) : res unit :=
  let* checks := checks_above_level self lvl in
  match checks with [] => Ok tt | _ => Err ValueError end.

(** [CheckList.__add__], checks.py:84-85 *)
Definition add_checks (self other : list check) : list check := self ++ other.

(** ** Type checks *)

Inductive class := Int | Float | Str | Class (name : string).
Section Types.
(** the classes an object is an instance of: [isinstance(value, class)] *)
Variable value : Type.
Variable isinstance : value -> class -> bool.

(** [is_int], [is_float] and [is_str], checks.py:111-135 *)
Definition is_builtin (c : class) (v : value) (lvl : string) : list check :=
  if negb (isinstance v c) then [Failed "FailedCheck"]
  else if String.eqb lvl "info" then [PassedCheck] else [].

(** [type_check], checks.py:138-156 *)
Definition type_check (v : value) (expected_type : class) (lvl : string) : list check :=
  match expected_type with
  | Int => is_builtin Int v "error"
  | Float => is_builtin Float v "error"
  | Str => is_builtin Str v "error"
  | Class _ => if negb (isinstance v expected_type) then [Failed "FailedCheck"]
               else if String.eqb lvl "info" then [PassedCheck] else []
  end.
End Types.

(** ** Validity of an object *)

(** What happens when an object goes through the platform: whether the object read back is
    equal, the copy is equal, the document is valid, displays are computed and written,
    schemas are computed and written.  The first two may raise. *)
Record platform := {
  serialized_equal : res bool; copied_equal : res bool; bson_valid : bool;
  displays_computed : bool; displays_dumped : bool; schemas_computed : bool; schemas_dumped : bool }.

(** [check_serialization_process], checks.py:159-188, [check_copy], checks.py:191-209 *)
Definition equality_check (equal : bool) (failure : string) : check :=
  if equal then PassedCheck else Failed failure.

(** [check_displays], checks.py:212-231, [check_schemas], checks.py:234-254 *)
Definition two_steps_check (computed dumped : bool) (failure : string) : check :=
  if computed then if dumped then PassedCheck else Failed "NonSerializable" else Failed failure.

(** [DessiaObject.check_platform], core.py:496-523 *)
Definition check_platform (p : platform) : res (list check) :=
  let* serialization := serialized_equal p in
  let* copy := copied_equal p in
  Ok [equality_check serialization "NonSerializable"; equality_check copy "FailedCheck";
      (if bson_valid p then PassedCheck else Failed "FailedCheck");
      two_steps_check (displays_computed p) (displays_dumped p) "NonDisplayable";
      two_steps_check (schemas_computed p) (schemas_dumped p) "BadStructure"].

(** [DessiaObject.check_list], core.py:302-308; the level is not used *)
Definition check_list (p : platform) (lvl : string) (with_platform : bool) : res (list check) :=
  if with_platform then let* c := check_platform p in Ok (add_checks [] c) else Ok [].

(** [DessiaObject.is_valid], core.py:310-316 *)
Definition is_valid (p : platform) (lvl : string) : res bool :=
  let* checks := check_list p "error" true in
  let* above := checks_above_level checks lvl in
  Ok (match above with [] => true | _ => false end).

(** ** Schemas *)

(** Annotations by the schema they have (get_schema).  [TClass]: a class, whether it is a
    DessiaObject and standalone.  [TOther]: annotations whose schema has no check (Any, None,
    Optional, measures, methods, literals).  [None] is an ellipsis. *)
Inductive annotation :=
| TBuiltin (is_str : bool)
| TOther
| TFile
| TClass (dessia standalone : bool)
| TUnion (args : list annotation)
| TTuple (args : list (option annotation))
| TList (args : list annotation)
| TDict (args : list annotation)
| TInstanceOf (args : list annotation)
| TType (args : list annotation).

(** The default value of an attribute: UNDEFINED, None or another one *)
Inductive default_value := Undefined | NoneDefault | Defined.

(** [has_one_arg], schemas/core.py:669-676 *)
Definition has_one_arg (args : list annotation) : check :=
  if List.length args =? 1 then PassedCheck else Failed "WrongNumberOfArguments".

(** [a._standalone_in_db] *)
Definition standalone_in_db (a : annotation) : res bool :=
  match a with TClass true s => Ok s | _ => Err AttributeError end.

(** [issubclass(key_type, str)] raises on what is not a class *)
Definition is_subclass_of_str (a : annotation) : res bool :=
  match a with TBuiltin b => Ok b | TClass _ _ | TFile => Ok false | _ => Err TypeError end.
Definition is_simple (a : annotation) : bool := match a with TBuiltin _ => true | _ => false end.

(** [default_value()] of a list and of a dictionary, schemas/core.py:1205-1207 and
    1258-1260 *)
Definition mutable_default_value (default : default_value) : default_value := NoneDefault.

(** [has_no_default] of a list and of a dictionary, schemas/core.py:1215-1223 and 1297-1305 *)
Definition mutable_has_no_default (default : default_value) : check :=
  match mutable_default_value default with Defined => Failed "UnsupportedDefault" | _ => PassedCheck end.

(** [check_list] of the properties, schemas/core.py:568-574, 908-924, 966-982, 1034-1056,
    1141-1168, 1209-1224, 1262-1310, 1354-1358, 1570-1580 *)
Definition property_check_list (a : annotation) (default : default_value) : res (list check) :=
  match a with
  | TBuiltin _ | TOther => Ok []
  | TFile => Ok [match default with Undefined => PassedCheck | _ => CheckWarning end]
  | TClass dessia _ => Ok [if dessia then PassedCheck else Failed "WrongType"]
  | TUnion args =>
      let* standalone_args := mapM standalone_in_db args in
      Ok [if forallb (fun b => b) standalone_args then PassedCheck
          else if negb (existsb (fun b => b) standalone_args) then PassedCheck
          else Failed "WrongType"]
  | TTuple args =>
      Ok [(if List.length args =? 0 then Failed "WrongNumberOfArguments" else PassedCheck);
          (if existsb (fun a => match a with None => true | Some _ => false end) args && negb (List.length args =? 2) then Failed "WrongNumberOfArguments" else PassedCheck)]
  | TList args =>
      Ok [has_one_arg args; mutable_has_no_default default]
  | TDict args =>
      let two := if List.length args =? 2 then PassedCheck else Failed "WrongNumberOfArguments" in
      match args with
      | [key_type; value_type] =>
          let* string_keys := is_subclass_of_str key_type in
          Ok [two; (if string_keys then PassedCheck else Failed "WrongType");
              (if is_simple value_type then PassedCheck else Failed "WrongType");
              mutable_has_no_default default]
      | _ => Err ValueError                  (* key_type, value_type = self.args *)
      end
  | TInstanceOf args | TType args => Ok [has_one_arg args]
  end.

(** A schema: for each step, its attributes with their annotation and default. *)
Definition schema := list (list (annotation * default_value)).

(** CheckList objects, by their address *)
Definition store := list (list check).
Definition read (h : store) (l : nat) : list check := nth l h [].

(** [issues + other], a new object *)
Definition new_sum (h : store) (issues other : nat) : store * nat :=
  (h ++ [add_checks (read h issues) (read h other)], List.length h).

(** [SchemaAttributeCollection.check_list], schemas/core.py:172-175.  CheckList has no
    [__iadd__], so that [+=] makes the local variable another object. *)
Fixpoint collection_check_list (h : store) (attributes : list (annotation * default_value)) (issues : nat) : res store :=
  match attributes with
  | [] => Ok h
  | (a, default) :: attributes =>
      let* checks := property_check_list a default in
      let (h, issues) := new_sum (h ++ [checks]) issues (List.length h) in
      collection_check_list h attributes issues
  end.

(** [Schema.check_list], schemas/core.py:291-302 *)
Definition schema_check_list (steps : schema) : res (list check) :=
  let h := [[]] in
  let issues := 0 in
  let* h := foldM (fun h step => collection_check_list h step issues) steps h in
  Ok (read h issues).

(** [Schema.is_valid], schemas/core.py:304-307 *)
Definition schema_is_valid (steps : schema) : res bool :=
  let* checks := schema_check_list steps in
  let* above := checks_above_level checks "error" in
  Ok (match above with [] => true | _ => false end).

(** Model of the form of the run of a workflow (/repo/dessia_common/workflow/core.py:706-755,
    /repo/dessia_common/schemas/core.py:130-270). *)
From Coq Require Import List String Bool Arith DecimalString.
From Verif Require Import Base.
Import ListNotations.
Local Open Scope string_scope.
Local Open Scope list_scope.

(** Variables are compared by identity, workflow/core.py:49: a variable is a number.  [T] are types, [X] values. *)
Record variable {T X : Type} := Variable_ { v_label : string; v_name : string; v_type : T; v_default : option X; v_locked : bool }.
Arguments variable : clear implicits.
(** SchemaAttribute, schemas/core.py:95-103; [C] are documentations.  [a_title] is the one given. *)
Record attribute {X C : Type} := Attribute { a_key : string; a_default : option X; a_title : string; a_editable : bool; a_doc : C }.
Arguments attribute : clear implicits.
(** Step, workflow/core.py:282-300: [s_selector] is the selector of its display, which may be None; [s_rest] are its
    documentation, identifier and displayed variable. *)
Record step {R : Type} := Step { s_label : string; s_group_id : string; s_inputs : list nat; s_group : list nat; s_selector : option (option string); s_rest : R }.
Arguments step : clear implicits.
(** A group of attributes, schemas/core.py:181-196, with the forms [F] of its attributes. *)
Record group_form {F : Type} := GroupForm { g_key : string; g_title : option string; g_properties : list F }.
Arguments group_form : clear implicits.
(** The form of a step, schemas/core.py:199-227: a group is the last of the properties. *)
Record step_form {F R : Type} := StepForm { f_label : string; f_properties : list F; f_group : option (group_form F); f_rest : R }.
Arguments step_form : clear implicits.

Section RunForm.
Context {T X C P F R B : Type}.
(** The variables of the workflow and the lists of workflow/core.py:372-376, 398, 404-409. *)
Variable var : nat -> variable T X.
Variable inputs : list nat.
Variable nonblock : list nat.
Variable detached : list nat.
Variable steps : list (step R).
Variable spare : list nat.
(** get_upstream_nbv, workflow/core.py:1014-1021 *)
Variable upstream : nat -> nat.
(** block_from_variable, workflow/core.py:1073-1076, the name of a block, and parse_input_doc, 216-224, which never fails. *)
Variable block_of : nat -> res B.
Variable block_name : B -> string.
Variable input_doc : B -> nat -> C.
Variable empty_doc : C.
(** prettyname, utils/helpers.py:41-53 *)
Variable pretty : string -> string.
(** get_schema, schemas/core.py:1781-1808, and to_dict of a schema *)
Variable get_schema : T -> attribute X C -> res P.
Variable to_dict : P -> res F.

(** locked, workflow/core.py:62-69 *)
Definition locked (v : variable T X) : res bool :=
  if v_locked v then match v_default v with Some _ => Ok true | None => Err ValueError end else Ok false.
(** input_index, workflow/core.py:1091-1096 *)
Definition input_index (v : nat) : option nat := index_of Nat.eqb (upstream v) inputs.
(** str of an index or of None *)
Definition address (v : nat) : string :=
  match input_index v with Some i => NilZero.string_of_uint (Nat.to_uint i) | None => "None" end.
(** A dictionary: the last of the values of a key counts. *)
Fixpoint get (k : string) (d : list (string * T)) : option T :=
  match d with
  | [] => None
  | (k', t) :: d => match get k d with Some t => Some t | None => if String.eqb k k' then Some t else None end
  end.
Definition pop (k : string) (d : list (string * T)) : res (T * list (string * T)) :=
  let* t := of_option KeyError (get k d) in Ok (t, filter (fun x => negb (String.eqb k (fst x))) d).
(** input_annotations, workflow/core.py:706-707 *)
Definition input_annotations (l : list nat) : list (string * T) := map (fun v => (address v, v_type (var v))) l.
(** input_schema, workflow/core.py:709-726; a label is a string, possibly empty. *)
Definition input_schema (v : nat) : res (attribute X C) :=
  let x := var v in
  let name := pretty (v_name x) in
  let* td :=
    if negb (memb Nat.eqb v nonblock) && negb (memb Nat.eqb v detached) then
      let* b := block_of v in
      Ok (if String.eqb (v_label x) "" then (block_name b ++ " - " ++ name)%string else v_label x, input_doc b v)
    else Ok (v_label x, empty_doc) in
  let title := if memb Nat.eqb v nonblock && String.eqb (fst td) "" then name else fst td in
  let* l := locked x in
  Ok (Attribute X C (address v) (v_default x) title (negb l) (snd td)).

(** The schemas of the attributes of a collection, schemas/core.py:132-143.  Keys that come several times have the
    schema of the last. *)
Fixpoint schemas (ann : list (string * T)) (l : list (attribute X C)) : res (list (string * P)) :=
  match l with
  | [] => Ok []
  | a :: l =>
    let* t := of_option ValueError (get (a_key a) ann) in
    let* p := get_schema t a in
    let* r := schemas ann l in
    Ok ((a_key a, p) :: r)
  end.
Fixpoint schema_of (k : string) (d : list (string * P)) : option P :=
  match d with
  | [] => None
  | (k', t) :: d => match schema_of k d with Some t => Some t | None => if String.eqb k k' then Some t else None end
  end.
(** chunk, schemas/core.py:159-166 *)
Definition chunk (d : list (string * P)) (a : attribute X C) : res F := let* p := of_option ValueError (schema_of (a_key a) d) in to_dict p.

(** The annotations of a group are popped, workflow/core.py:745. *)
Fixpoint pop_all (l : list (attribute X C)) (ann : list (string * T)) : res (list (string * T) * list (string * T)) :=
  match l with
  | [] => Ok ([], ann)
  | a :: l =>
    let* ta := pop (a_key a) ann in
    let* r := pop_all l (snd ta) in
    Ok ((a_key a, fst ta) :: fst r, snd r)
  end.
(** What is built for a step before it is written, workflow/core.py:731-749. *)
Definition built := (list (attribute X C) * list (string * P) * option (list (attribute X C) * list (string * P)))%type.
(** The title, workflow/core.py:744, that is shown, schemas/core.py:113-118, 192. *)
Definition group_name (s : step R) : option string :=
  match s_selector s with
  | Some (Some t) => Some (if String.eqb t "" then pretty (s_group_id s) else t)
  | Some None => None
  | None => Some ("Group '" ++ s_label s ++ "'")%string
  end.
Definition build_step (s : step R) : res built :=
  let ann := input_annotations (s_inputs s) in
  let* al := mapM (fun v => let* a := input_schema v in Ok (memb Nat.eqb v (s_group s), a)) (s_inputs s) in
  let plain := map snd (filter (fun x => negb (fst x)) al) in
  let grouped := map snd (filter fst al) in
  match grouped with
  | [] => let* d := schemas ann plain in Ok (plain, d, None)
  | _ =>
    let* popped := pop_all grouped ann in
    let* gd := schemas (fst popped) grouped in
    let* d := schemas (snd popped) plain in
    Ok (plain, d, Some (grouped, gd))
  end.
(** to_dict of the step, schemas/core.py:177-178, 191-196, 221-227 *)
Definition write_step (s : step R) (b : built) : res (step_form F R) :=
  let '(plain, d, g) := b in
  let* l := mapM (chunk d) plain in
  let* g := match g with
            | None => Ok None
            | Some (grouped, gd) => let* r := mapM (chunk gd) grouped in Ok (Some (GroupForm F (s_group_id s) (group_name s) r))
            end in
  Ok (StepForm F R (s_label s) l g (s_rest s)).
(** Workflow.method_schemas, workflow/core.py:728-755, and Schema.to_dict, schemas/core.py:265-270: the steps and the spare
    properties. *)
Definition method_schemas : res (list (step_form F R) * list F) :=
  let* bs := mapM (fun s => let* b := build_step s in Ok (s, b)) steps in
  let ann := input_annotations spare in
  let* sa := mapM input_schema spare in
  let* sp := mapM (fun a => let* t := of_option KeyError (get (a_key a) ann) in get_schema t a) sa in
  let* fs := mapM (fun x => write_step (fst x) (snd x)) bs in
  let* ps := mapM to_dict sp in
  Ok (fs, ps).
End RunForm.

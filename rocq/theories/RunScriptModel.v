(** Model of the scripts of completed runs: what WorkflowRun.to_script writes after the
    script of the workflow (dessia_common/workflow/core.py:2205-2258, workflow/utils.py:81-121),
    and what executing it gives to Workflow.run. *)
From Coq Require Import ZArith Bool String Ascii Arith List.
From Verif Require Import Base ExecModel VariablesModel ScriptModel.
Import ListNotations.
Open Scope string_scope.
Open Scope list_scope.

Section RunScript.
Context {A : Type}.
(** the name of the class of a value that is no object, file, list nor tuple; whether
    repr writes an expression of that value *)
Variable type_name : A -> string.
Variable repr_ok : A -> bool.

(** ** Values of inputs *)

(** An instance of SerializableObject, a file, a list or a tuple, or any other value.
    Other sequences are left out. *)
Inductive value := Plain (x : A) | Object (c : cls) (x : A) | File (c : cls) (x : A) | Items (tuple : bool) (l : list value).

Definition class_name (v : value) : string :=
  match v with
  | Plain x => type_name x
  | Object c _ | File c _ => c_name c
  | Items t _ => if t then "tuple" else "list"
  end.

(** is_object_or_object_sequence, workflow/utils.py:95-102 *)
Definition is_object (v : value) : bool := match v with Object _ _ => true | _ => false end.
Definition is_object_or_object_sequence (v : value) : bool :=
  match v with
  | Object _ _ => true
  | Items _ l => forallb is_object l
  | _ => false
  end.

(** is_file_or_file_sequence, utils/types.py:109-116 *)
Fixpoint is_file_or_file_sequence (v : value) : bool :=
  match v with
  | File _ _ => true
  | Items _ l => existsb is_file_or_file_sequence l
  | _ => false
  end.

(** What is written for a value: its repr, Class('Set your arguments here'),
    Class.from_file('Set your filepath here') when [file], or a list of these. *)
Inductive written := WRepr (v : value) | WCall (file : bool) (c : string) | WCalls (file : bool) (cs : list string).

(** generate_input_string, workflow/utils.py:87-92 *)
Definition generate_input_string (file : bool) (v : value) : written :=
  match v with
  | Items _ l => WCalls file (map class_name l)
  | _ => WCall file (class_name v)
  end.

(** process_value, workflow/utils.py:105-114 *)
Definition process_value (v : value) : written :=
  if is_object_or_object_sequence v then generate_input_string false v
  else if is_file_or_file_sequence v then generate_input_string true v
  else WRepr v.

(** ** Types of inputs *)

(** No type; a builtin; a class; an alias of module typing (Any, List[...], Tuple[...]) with
    its attribute _name, which aliases of generic classes of other modules (InstanceOf[...],
    MethodType[...]) do not have; other annotations, that have no schema. *)
Inductive ann := AUntyped | ABuiltin | AClass (c : cls) | AAlias (n : option string) (args : list ann) | AOther.

(** update_imports, workflow/utils.py:81-84, and get_import_names, schemas/core.py:576-579,
    678-689, 823-825 and 871-874: None for a variable that has no type. *)
Fixpoint update_imports (a : ann) : res (list (option cls)) :=
  match a with
  | AUntyped => Ok [None]
  | ABuiltin => Ok []
  | AClass c => Ok [Some c]
  | AAlias n args =>
      let* l := (fix go l := match l with
                             | [] => Ok []
                             | x :: l' => let* a := update_imports x in let* r := go l' in Ok (a ++ r)
                             end) args in
      Ok (Some (mkCls "typing" (match n with Some x => x | None => "None" end)) :: l)
  | AOther => Err NotImplementedError
  end.

(** ** The script *)

(** The lines of the script of a workflow that name inputs of blocks, as texts
    (workflow/utils.py:64, workflow/core.py:1356-1371).  The other lines only hold texts of the
    user (names, documentation, arguments), which are supposed not to look like
    block_0.inputs[0]. *)
Definition vref_text (r : vref) : string :=
  match r with
  | VName x => render x
  | VIn x i => (render x ++ ".inputs[" ++ dec i ++ "]")%string
  | VOut x i => (render x ++ ".outputs[" ++ dec i ++ "]")%string
  end.
Definition line_text (l : stmt) : string :=
  match l with
  | SLock x i => (render x ++ ".inputs[" ++ dec i ++ "].lock()")%string
  | SPipe x s t => (render x ++ " = Pipe(" ++ vref_text s ++ ", " ++ vref_text t ++ ")")%string
  | _ => ""
  end.
(** [k in s] for strings *)
Fixpoint contains (k s : string) : bool :=
  prefix k s || match s with EmptyString => false | String _ s' => contains k s' end.

Definition input_key (j i : nat) : string := ("block_" ++ dec j ++ ".inputs[" ++ dec i ++ "]")%string.

(** value_j_i and value_k *)
Inductive vname := NPort (j i : nat) | NFree (k : nat).
Definition render_value (n : vname) : string :=
  match n with
  | NPort j i => ("value_" ++ dec j ++ "_" ++ dec i)%string
  | NFree k => ("value_" ++ dec k)%string
  end.
Definition vname_eqb (a b : vname) : bool :=
  match a, b with
  | NPort j i, NPort j' i' => Nat.eqb j j' && Nat.eqb i i'
  | NFree k, NFree k' => Nat.eqb k k'
  | _, _ => false
  end.

(** The imports, the script of the workflow, the lines "value_j_i = ..." and the items
    "workflow.input_index(block_j.inputs[i]): value_j_i" of input_values. *)
Record rscript := mkScript {
  r_imports : list (string * list string); r_body : list stmt;
  r_values : list (vname * written); r_items : list (vref * vname) }.

Notation wf := (@wf value).

Section Write.
(** the type of each variable of the workflow, and the input values of the run *)
Variable type_of : nat -> ann.
Variable iv : nat -> option value.

(** _split_input_values, workflow/core.py:2205-2211 *)
Definition split_input_values (d : workflow) : res (list value * list value) :=
  let get (free : bool) :=
    mapM (fun x : nat * nat => of_option KeyError (iv (fst x)))
      (filter (fun x => Bool.eqb (mem (snd x) (nonblock_variables d)) free) (enumerate (inputs d))) in
  let* nbv_values := get true in
  let* block_values := get false in
  Ok (nbv_values, block_values).

(** the two loops over blocks and their inputs: block index, input index, input *)
Definition block_ports (d : workflow) : list (nat * nat * nat) :=
  flat_map (fun jb : nat * block => map (fun ix : nat * nat => (fst jb, fst ix, snd ix)) (enumerate (b_in (snd jb))))
    (enumerate (blocks d)).

Record wstate := mkW { w_index : nat; w_values : list (vname * written); w_items : list (vref * vname); w_imports : list (option cls) }.

(** workflow/core.py:2222-2230 *)
Definition write_port (declaration : list stmt) (block_values : list value) (s : wstate) (p : nat * nat * nat) : res wstate :=
  let '(j, i, v) := p in
  if existsb (fun l => contains (input_key j i) (line_text l)) declaration then Ok s
  else
    let* x := of_option IndexError (nth_error block_values (w_index s)) in
    let* l := update_imports (type_of v) in
    Ok (mkW (S (w_index s)) (w_values s ++ [(NPort j i, process_value x)])
          (w_items s ++ [(VIn (Sub 0 (NBlock j)) i, NPort j i)]) (w_imports s ++ l)).

(** workflow/core.py:2233-2236 *)
Definition write_nbv (nbv_values : list value) (s : wstate) (kv : nat * nat) : res wstate :=
  let* x := of_option IndexError (nth_error nbv_values (fst kv)) in
  let* l := update_imports (type_of (snd kv)) in
  Ok (mkW (w_index s) (w_values s ++ [(NFree (fst kv), process_value x)])
        (w_items s ++ [(VName (Sub 0 (NVar (fst kv))), NFree (fst kv))]) (w_imports s ++ l)).

(** WorkflowRun.to_script and save_script_to_stream, workflow/core.py:2213-2258; splitting an
    import that is None (workflow/utils.py:38) raises. *)
Definition save_script (w : wf) : res rscript :=
  let* s := wf_script 0 w in
  let* sp := split_input_values (diagram w) in
  let* s1 := foldM (write_port (snd s) (snd sp)) (block_ports (diagram w)) (mkW 0 [] [] []) in
  let* s2 := foldM (write_nbv (fst sp)) (enumerate (nonblock_variables (diagram w))) s1 in
  let* more := mapM (of_option AttributeError) (w_imports s2) in
  Ok (mkScript (import_dict (fst s ++ more)) (snd s) (w_values s2) (w_items s2)).
End Write.

(** ** Executing the script *)
Section Execute.
Variable params : cls -> string -> list (variable value string).
Variable text : string -> value.
(** calling a class, or its from_file, on the text that asks for arguments *)
Variable call : bool -> cls -> res value.

(** a repr is read back when it holds no instance nor file *)
Fixpoint literal (v : value) : bool :=
  match v with
  | Plain x => repr_ok x
  | Items _ l => forallb literal l
  | _ => false
  end.
Definition value_parses (x : written) : bool := match x with WRepr v => literal v | _ => true end.
(** "from typing import None" is no line of python *)
Definition import_parses (x : string * list string) : bool := negb (memb String.eqb "None" (snd x)).

Definition call_named (imports : list (string * list string)) (file : bool) (n : string) : res value :=
  let* c := resolve imports n in call file c.
Definition eval_written (imports : list (string * list string)) (x : written) : res value :=
  match x with
  | WRepr v => Ok v
  | WCall file c => call_named imports file c
  | WCalls file cs => let* l := mapM (call_named imports file) cs in Ok (Items false l)
  end.

(** The values in the variables of the script, by name. *)
Definition assign (imports : list (string * list string)) (e : vname -> option value) (x : vname * written)
  : res (vname -> option value) :=
  let* v := eval_written imports (snd x) in
  Ok (fun n => if vname_eqb (fst x) n then Some v else e n).

(** an item of the dictionary: workflow.input_index(...) and a value *)
Definition item (s : @st value) (w : wf) (e : vname -> option value) (x : vref * vname) : res (option nat * value) :=
  let* v := deref s (fst x) in
  let* y := of_option NameError (e (snd x)) in
  Ok (input_index (diagram w) v, y).

(** The workflow built and the dictionary given to its method run, in order and with
    repeated keys kept.  Classes that are not imported, as list or int, raise NameError here;
    python finds those that are builtins. *)
Definition execute (x : rscript) : res (wf * list (option nat * value)) :=
  if forallb import_parses (r_imports x) && forallb (fun v => value_parses (snd v)) (r_values x) then
    let* s := run_state params text (r_imports x, r_body x) in
    let* w := match env s (Sub 0 NWorkflow) with Some (OWf w) => Ok w | Some _ => Err TypeError | None => Err NameError end in
    let* e := foldM (assign (r_imports x)) (r_values x) (fun _ => None) in
    let* d := mapM (item s w e) (r_items x) in
    Ok (w, d)
  else Err SyntaxError.
End Execute.
End RunScript.
Arguments value : clear implicits.

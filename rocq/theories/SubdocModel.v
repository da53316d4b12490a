(** Model of the documentation of the inputs of blocks (/repo/dessia_common/workflow/core.py:212-224, 702-704,
    /repo/dessia_common/workflow/blocks.py:122-129, 188-195, 270-277, 426-434, 509-515).

    Variables are numbers, as they are equal only to themselves; docstrings are parsed as in DocstringModel, what this gives
    is a parameter of blocks here. *)
From Coq Require Import List Bool Arith String.
From Verif Require Import Base.
Import ListNotations.

Section Subdoc.
(** parsed attributes, EMPTY_PARSED_ATTRIBUTE and FAILED_ATTRIBUTE_PARSING, schemas/core.py:33-35 *)
Variable doc : Type.
Variable EMPTY_PARSED_ATTRIBUTE FAILED_ATTRIBUTE_PARSING : doc.

(** Blocks: those without docstring; InstantiateModel, ClassMethod and ModelMethod, with their inputs, the names of these, and
    what parse_docstring gives for the class or method; WorkflowBlock and ForEach, with their inputs, the blocks and the inputs
    of their workflow. *)
Inductive block :=
| Basic (inputs : list nat)
| Documented (inputs : list (nat * string)) (parsed_attributes : res (list (string * doc)))
| WorkflowBlock (inputs : list nat) (blocks : list block) (workflow_inputs : list nat)
| ForEach (inputs : list nat) (blocks : list block) (workflow_inputs : list nat).

(** dictionaries *)
Definition dict := list (nat * doc).
Fixpoint get (i : nat) (d : dict) : option doc :=
  match d with [] => None | (j, x) :: d' => if i =? j then Some x else get i d' end.
Fixpoint set (i : nat) (x : doc) (d : dict) : dict :=
  match d with [] => [(i, x)] | (j, y) :: d' => if i =? j then (j, x) :: d' else (j, y) :: set i x d' end.
Fixpoint attribute (n : string) (l : list (string * doc)) : option doc :=
  match l with [] => None | (m, x) :: l' => if String.eqb n m then Some x else attribute n l' end.

(** the dictionary of a list of keys and values *)
Definition dict_of (l : list (nat * doc)) : dict := fold_left (fun d ix => set (fst ix) (snd ix) d) l [].
(** the loops of WorkflowBlock._docstring, blocks.py:429-434 *)
Definition add_block_docstring (workflow_inputs : list nat) (docstring block_docstring : dict) : dict :=
  fold_left (fun docstring i => match get i block_docstring with Some x => set i x docstring | None => docstring end)
            workflow_inputs docstring.
Definition workflow_block_docstring (workflow_docstrings : list dict) (workflow_inputs : list nat) : dict :=
  fold_left (add_block_docstring workflow_inputs) workflow_docstrings [].
(** the loop of ForEach._docstring, blocks.py:512-515 *)
Definition for_each_docstring (inputs workflow_inputs : list nat) (wb_docstring : dict) : res dict :=
  foldM (fun block_docstring ij =>
           let* x := of_option KeyError (get (snd ij) wb_docstring) in
           Ok (set (fst ij) x block_docstring))
        (combine inputs workflow_inputs) [].

(** Block._docstring, core.py:212-214, and those of blocks.py *)
Fixpoint docstring (b : block) : res dict :=
  let workflow_docstring := (fix go (l : list block) : res (list dict) :=
    match l with [] => Ok [] | b :: l' => let* d := docstring b in let* ds := go l' in Ok (d :: ds) end) in
  match b with
  | Basic ins => Ok (dict_of (map (fun i => (i, EMPTY_PARSED_ATTRIBUTE)) ins))
  | Documented ins parsed =>
    let* l := parsed in
    Ok (dict_of (map (fun i => (fst i, match attribute (snd i) l with Some x => x | None => EMPTY_PARSED_ATTRIBUTE end)) ins))
  | WorkflowBlock _ blocks wins =>
    let* ds := workflow_docstring blocks in Ok (workflow_block_docstring ds wins)
  | ForEach ins blocks wins =>
    let* ds := workflow_docstring blocks in for_each_docstring ins wins (workflow_block_docstring ds wins)
  end.

(** parse_input_doc, core.py:216-224 *)
Definition parse_input_doc (b : block) (i : nat) : doc :=
  match docstring b with
  | Ok d => match get i d with Some x => x | None => EMPTY_PARSED_ATTRIBUTE end
  | Err _ => FAILED_ATTRIBUTE_PARSING
  end.
End Subdoc.

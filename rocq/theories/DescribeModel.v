(** Model of the markdown that describes objects, states and runs of workflows: values printed by
    [MarkdownWriter] (/repo/dessia_common/exports.py:290-431), [DessiaObject.to_markdown]
    (/repo/dessia_common/core.py:462-466, 539-542), [ExecutionInfo], [WorkflowState.to_markdown] and
    [WorkflowRun.to_markdown] (/repo/dessia_common/workflow/core.py:1578-1637, 2127-2132, 2267-2279).

    Texts are ASCII; names of objects are texts, names of classes identifiers.  Templates are lists of texts and
    names: what [string.Template] does of them, without looking into the texts that replace names. *)
From Coq Require Import Ascii String List Bool Arith ZArith.
From Verif Require Import Base TableModel.
From Verif Require AnnotationModel DocxModel.
Import ListNotations.
Local Open Scope string_scope.
Local Open Scope list_scope.

(** A value, as far as it is printed: numbers (int, float, bool) with the text of their rounding, sequences with
    their class, dictionaries with their values, other objects with their name if they have one.
    Sets and arrays are such objects. *)
Inductive value :=
| Number (cls printed : string)
| Complex
| Text (s : string)
| Sequence (cls : string) (items : list value)
| Dictionary (items : list value)
| Nothing
| Object (cls : string) (name : option string).

(** [value.__class__.__name__] *)
Definition class_name (v : value) : string :=
  match v with
  | Number cls _ => cls
  | Complex => "complex"
  | Text _ => "str"
  | Sequence cls _ => cls
  | Dictionary _ => "dict"
  | Nothing => "NoneType"
  | Object cls _ => cls
  end.

Section Describe.
(** The order in which a set of names is listed. *)
Variable set_order : list string -> list string.

Fixpoint remove_twice (l : list string) : list string :=
  match l with
  | [] => []
  | x :: l => x :: filter (fun y => negb (String.eqb x y)) (remove_twice l)
  end.

(** _sequence_to_str, exports.py:303-317; [translate] drops the quotes of the list. *)
Definition sequence_to_str (cls : string) (items : list value) : string :=
  match items with
  | [] => "empty " ++ cls
  | _ =>
    nat_str (List.length items) ++ " " ++
    match set_order (remove_twice (map class_name items)) with
    | [name] => name ++ (if (1 <? List.length items)%nat then "s" else "")
    | names => "[" ++ join ", " names ++ "]"
    end
  end%string.

(** _object_to_str, exports.py:323-326 *)
Definition object_to_str (name : option string) : string :=
  match name with
  | Some n => if String.eqb n "" then "unnamed" else n
  | None => "unnamed"
  end.

Definition text_to_str (s : string) : string := if String.eqb s "" then "no value" else s.

(** _value_to_str, exports.py:328-339: complex numbers cannot be rounded; _dict_to_str makes a list of values, 319-320. *)
Definition value_to_str (v : value) : res string :=
  match v with
  | Number _ printed => Ok printed
  | Complex => Err TypeError
  | Text s => Ok (text_to_str s)
  | Sequence cls items => Ok (sequence_to_str cls items)
  | Dictionary items => Ok (sequence_to_str "list" items)
  | Nothing => Ok " - "
  | Object _ name => Ok (object_to_str name)
  end.

(** object_matrix, exports.py:344-351; an object is the list of its attributes. *)
Definition object_matrix (attributes : list (string * value)) : res (list (list string)) :=
  mapM (fun av => let* s := value_to_str (snd av) in Ok [fst av; class_name (snd av); s]) attributes.

(** object_titles and object_table, exports.py:298-300, 404-407, for writers that print 25 characters and all rows. *)
Definition object_table (attributes : list (string * value)) : res string :=
  let* matrix := object_matrix attributes in
  Ok (matrix_table text_to_str 25 None matrix ["Attribute"; "Type"; "Value"]).

(** ** Templates *)
Inductive piece := T (s : string) | V (name : string).
Fixpoint lookup (name : string) (l : list (string * string)) : res string :=
  match l with
  | [] => Err KeyError
  | (n, s) :: l => if String.eqb n name then Ok s else lookup name l
  end.
(** [Template.substitute] *)
Definition substitute (template : list piece) (names : list (string * string)) : res string :=
  let* l := mapM (fun p => match p with T s => Ok s | V n => lookup n names end) template in
  Ok (join "" l).
Definition lines (l : list string) : string := join "" (map (fun s => (s ++ newline)%string) l).

(** templates.py:4-19 *)
Definition object_template : list piece :=
  [T "# Object "; V "name"; T " of class "; V "class_";
   T (lines [""; ""; "This is a markdown file https://www.markdownguide.org/cheat-sheet/"; "";
             "The good practice is to create a string python template and move the template to another python module";
             "(like templates.py) to avoid mix python code and markdown, as python syntax conflicts with markdown"; ""]);
   T "You can substitute values with object attributes like the name of the object: "; V "name";
   T (lines [""; ""; "# Attributes"; ""]);
   T "Object "; V "name"; T " of class "; V "class_"; T (lines [" has the following attributes:"; ""]);
   V "table"; T (lines [""; ""])].

(** DessiaObject.to_markdown, core.py:462-466 *)
Definition to_markdown (name cls : string) (attributes : list (string * value)) : res string :=
  let* table := object_table attributes in
  substitute object_template [("name", name); ("class_", cls); ("table", table)].

(** to_markdown_docx, core.py:539-542 *)
Definition to_docx (name cls : string) (attributes : list (string * value)) : res DocxModel.document :=
  let* text := to_markdown name cls attributes in
  DocxModel.from_markdown (AnnotationModel.chars text).

(** ** Execution of workflows *)
(** ExecutionInfo, workflow/core.py:1581-1599; blocks are numbers, with a name. *)
Record execution_info := Info { start_time : Z; end_time : option Z; before : list (nat * Z); after : list (nat * Z) }.
Variable block_name : nat -> string.
(** [humanize.naturalsize] *)
Variable naturalsize : Z -> string.

(** [d[k]], [dict(pairs)]: a key keeps its first place, with its last value. *)
Fixpoint value_of {A} (l : list (nat * A)) (b : nat) : option A :=
  match l with
  | [] => None
  | (c, x) :: l => if Nat.eqb c b then Some x else value_of l b
  end.
Fixpoint set_key {A} (l : list (nat * A)) (b : nat) (x : A) : list (nat * A) :=
  match l with
  | [] => [(b, x)]
  | (c, y) :: l => if Nat.eqb c b then (c, x) :: l else (c, y) :: set_key l b x
  end.
Definition dict_of {A} (l : list (nat * A)) : list (nat * A) := fold_left (fun d p => set_key d (fst p) (snd p)) l [].

(** execution_time, 1601-1606 *)
Definition execution_time (i : execution_info) : option Z := option_map (fun e => (e - start_time i)%Z) (end_time i).

(** to_dict and dict_to_object, 1608-1625, with the numbers given by the workflow *)
Definition numbered (block_indices : list (nat * nat)) (l : list (nat * Z)) : res (list (nat * Z)) :=
  mapM (fun bm => let* i := of_option KeyError (value_of block_indices (fst bm)) in Ok (i, snd bm)) l.
Definition info_to_dict (block_indices : list (nat * nat)) (i : execution_info) : res (Z * option Z * list (nat * Z) * list (nat * Z)) :=
  let* b := numbered block_indices (before i) in
  let* a := numbered block_indices (after i) in
  Ok (start_time i, end_time i, b, a).
Definition info_of_dict (index_to_block : list (nat * nat)) (d : Z * option Z * list (nat * Z) * list (nat * Z)) : res execution_info :=
  let '(s, e, b, a) := d in
  let* b := numbered index_to_block b in
  let* a := numbered index_to_block a in
  Ok (Info s e b a).

(** ExecutionInfo.to_markdown, 1627-1637; it takes keyword arguments only. *)
Definition info_to_markdown (i : execution_info) : res string :=
  let* content := mapM (fun bm =>
    let* stop := of_option KeyError (value_of (dict_of (after i)) (fst bm)) in
    Ok [block_name (fst bm); naturalsize (snd bm); naturalsize stop; naturalsize (stop - snd bm)%Z]) (dict_of (before i)) in
  Ok (matrix_table text_to_str 25 None content ["Block"; "Memory usage at start"; "Memory usage at end"; "Memory diff"]).

(** The call of a function that takes [positional] arguments and any keyword. *)
Definition call_keywords_only {A} (positional : nat) (result : res A) : res A :=
  match positional with 0 => result | S _ => Err TypeError end.

(** templates.py:88-96 *)
Definition state_template : list piece :=
  [T "# WorkflowState "; V "name"; T (lines [""; ""]); T "progress "; V "progress"; T "% on workflow "; V "workflow_name";
   T (lines [""; ""; "# Execution informations"; ""]); V "execution_info"; T (lines [""; ""])].
(** WorkflowState.to_markdown, 2127-2132: the blocks are given as a positional argument. *)
Definition state_to_markdown (name progress workflow_name : string) (i : execution_info) : res string :=
  let* info := call_keywords_only 1 (info_to_markdown i) in
  substitute state_template [("name", name); ("progress", progress); ("workflow_name", workflow_name); ("execution_info", info)].

(** templates.py:98-110 *)
Definition run_template : list piece :=
  [T "# WorkflowRun "; V "name"; T (lines [""; ""]); T "Run of workflow "; V "workflow_name";
   T (lines [""; ""; "# Output"; ""]); V "output_table"; T (lines [""; ""; "# Execution informations"; ""]);
   V "execution_info"; T (lines [""; ""])].
(** The output of a run: a sequence of some length, an object with attributes, or a value without [__dict__]. *)
Inductive output := Elements (n : nat) | Attributes (l : list (string * value)) | Plain.
(** WorkflowRun.to_markdown, 2267-2279 *)
Definition run_to_markdown (name workflow_name : string) (o : output) (i : execution_info) : res string :=
  let* table := match o with
                | Elements n => Ok ("Output is a sequence of " ++ nat_str n ++ " elements")%string
                | Attributes l => object_table l
                | Plain => Err AttributeError
                end in
  let* info := call_keywords_only 0 (info_to_markdown i) in
  substitute run_template [("name", name); ("workflow_name", workflow_name); ("output_table", table); ("execution_info", info)].
End Describe.

(** ** Titles *)
(** table_of_contents, exports.py:419-425, with [heading.lower().replace(" ", "-")] *)
Definition anchor (heading : string) : string :=
  map_string (fun c => if Ascii.eqb c " " then "-"%char else c) (map_string lower heading).
Definition table_of_contents (headings : list string) : string :=
  fold_left (fun s h => s ++ "- [" ++ h ++ "](#" ++ anchor h ++ ")" ++ newline)%string headings ("## Table of Contents" ++ newline ++ newline)%string.
(** header, exports.py:427-431 *)
Definition header (title : string) (level : nat) : string := (repeat_string "#" level ++ " " ++ title ++ newline ++ newline)%string.

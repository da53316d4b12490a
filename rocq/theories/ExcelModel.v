(** Model of the Excel export of an object ([XLSXWriter], /repo/dessia_common/exports.py) and
    of the reader of such files (/repo/dessia_common/excel_reader.py).

    A workbook is the list of its sheets and a sheet a grid of cells.  Styles, column widths
    and filters are left out; openpyxl is a contract: a saved and loaded workbook has the cells
    that were written, but for empty strings and formulas ([stored]). *)
From Coq Require Import Ascii String ZArith QArith Bool Arith.
From Verif Require Import Base TableModel.
From Verif Require BreakdownModel BreakdownSpec.
From Coq Require Import List.
Import ListNotations.
Open Scope list_scope.
Open Scope string_scope.
Open Scope nat_scope.

(** Values.  [VDict] has the text of its keys; [VObj] has the module and the name of its class,
    its identity and its [__dict__]. *)
Inductive value :=
| VNone
| VBool (b : bool)
| VInt (z : Z)
| VFloat (q : Q)
| VStr (s : string)
| VList (l : list value)
| VTuple (l : list value)
| VSet (l : list value)
| VDict (d : list (string * value))
| VObj (module class : string) (id : nat) (attributes : list (string * value)).

(** What a cell holds. *)
Inductive scalar := CNone | CBool (b : bool) | CInt (z : Z) | CNum (q : Q) | CText (s : string).

(** A cell: its value and its hyperlink, the title of a sheet and a row of it
    ([#title!A<row>]). *)
Record cell := { content : scalar; link : option (string * nat) }.
Definition bare (c : scalar) : cell := {| content := c; link := None |}.
Definition blank : cell := bare CNone.
Definition text (s : string) : cell := bare (CText s).

Record sheet := { title : string; grid : list (list cell) }.
Definition workbook := list sheet.

(** ** Dictionaries *)

Fixpoint get {A} (k : string) (d : list (string * A)) : option A :=
  match d with
  | [] => None
  | (k', x) :: d' => if String.eqb k' k then Some x else get k d'
  end.
Fixpoint put {A} (k : string) (x : A) (d : list (string * A)) : list (string * A) :=
  match d with
  | [] => [(k, x)]
  | (k', x') :: d' => if String.eqb k' k then (k', x) :: d' else (k', x') :: put k x d'
  end.
(** [sorted(d.items())]: keys are distinct, values are not compared *)
Fixpoint insert_key {A} (e : string * A) (l : list (string * A)) : list (string * A) :=
  match l with
  | [] => [e]
  | f :: l' => if String.leb (fst e) (fst f) then e :: l else f :: insert_key e l'
  end.
Definition sort_keys {A} (d : list (string * A)) : list (string * A) := fold_right insert_key [] d.

Definition of_option {A} (e : exn) (o : option A) : res A :=
  match o with Some a => Ok a | None => Err e end.

(** ** Writing, exports.py *)

(** [not k.startswith('_')] *)
Definition public (k : string) : bool :=
  match k with String "_" _ => false | _ => true end.

(** [is_builtins_list], exports.py:24-34 *)
Definition is_builtin (v : value) : bool :=
  match v with VBool _ | VInt _ | VFloat _ | VStr _ => true | _ => false end.
Definition is_builtins_list (l : list value) : bool := forallb is_builtin l.

(** [value.__class__.__name__] *)
Definition type_name (v : value) : string :=
  match v with
  | VNone => "NoneType" | VBool _ => "bool" | VInt _ => "int" | VFloat _ => "float" | VStr _ => "str"
  | VList _ => "list" | VTuple _ => "tuple" | VSet _ => "set" | VDict _ => "dict"
  | VObj _ c _ _ => c
  end.

(** What [breakdown] sees of a value; of an object, the attributes that
    [_serializable_dict] (serialization.py:40-48) keeps. *)
Fixpoint seen (v : value) : BreakdownModel.value :=
  match v with
  | VNone | VBool _ | VInt _ | VFloat _ | VStr _ => BreakdownModel.Plain
  | VList l | VTuple l => BreakdownModel.Seq (map seen l)
  | VSet l => BreakdownModel.Set_ (map seen l)
  | VDict d => BreakdownModel.Dict (map (fun kx => (fst kx, seen (snd kx))) d)
  | VObj _ c i a => BreakdownModel.Obj c i
      (filter (fun kx => public (fst kx)) (map (fun kx => (fst kx, seen (snd kx))) a))
  end.

(** The objects in a value, in which the identities of a breakdown are found. *)
Fixpoint objects (v : value) : list value :=
  match v with
  | VNone | VBool _ | VInt _ | VFloat _ | VStr _ => []
  | VList l | VTuple l | VSet l => flat_map objects l
  | VDict d => flat_map (fun kx => objects (snd kx)) d
  | VObj _ _ _ a => v :: flat_map (fun kx => objects (snd kx)) a
  end.
Definition object_of (v : value) (i : nat) : value :=
  match find (fun o => match o with VObj _ _ j _ => Nat.eqb j i | _ => false end) (objects v) with
  | Some o => o
  | None => VNone
  end.

Definition dict_of (v : value) : list (string * value) :=
  match v with VObj _ _ _ a => a | _ => [] end.

(** The columns after the name: [sorted(obj.__dict__.items())] without the private attributes
    and the name, exports.py:117-118 and 182-183 *)
Definition columns (a : list (string * value)) : list (string * value) :=
  sort_keys (filter (fun kx => public (fst kx) && negb (String.eqb (fst kx) "name")) a).

(** [write_class_header_to_row], exports.py:106-126 *)
Definition header_row (a : list (string * value)) : list cell :=
  text "Path" :: text "name" :: map (fun kx => text (fst kx)) (columns a).

(** writing a row, [sheet.cell(row=n, column=.., ..)]: rows count from 1 *)
Fixpoint set_row (n : nat) (r : list cell) (g : list (list cell)) : list (list cell) :=
  match n, g with
  | 0, _ => g
  | 1, [] => [r]
  | 1, _ :: g' => r :: g'
  | S n', [] => [] :: set_row n' r []
  | S n', x :: g' => x :: set_row n' r g'
  end.

Section Excel.
(** [==] of two objects, by identity (and equal hashes) *)
Variable same : nat -> nat -> bool.
(** [str(value)] of what is not a string *)
Variable pystr : value -> string.
(** [ast.literal_eval], [None] when it raises ValueError or SyntaxError *)
Variable literal : string -> option value.
(** [round(value, 6)] *)
Variable round6 : Q -> Q.
(** Importing a class by its full name: the parameters of its [__init__] with their default
    values *)
Variable classes : string -> res (list (string * option value)).

Definition str (v : value) : string := match v with VStr s => s | _ => pystr v end.

(** [self.paths = breakdown(object_)]: for each class, its objects and their paths *)
Definition paths_of (v : value) : list (string * list (nat * string)) :=
  match BreakdownModel.breakdown same (BreakdownSpec.height (seen v)) [] (seen v) "" with
  | Ok (h, d) => map (fun cl => (fst cl, BreakdownModel.read h (snd cl))) d
  | Err _ => []
  end.

(** [self.object_to_sheet_row], a dictionary from objects, exports.py:98-102 *)
Definition object_rows := list (nat * (string * nat * string)).
Fixpoint set_object (i : nat) (r : string * nat * string) (d : object_rows) : object_rows :=
  match d with
  | [] => [(i, r)]
  | (i', r') :: d' => if same i' i then (i', r) :: d' else (i', r') :: set_object i r d'
  end.
Definition get_object (d : object_rows) (i : nat) : option (string * nat * string) :=
  option_map snd (find (fun e => same (fst e) i) d).
Definition enumerate {A} (l : list A) : list (nat * A) := combine (seq 0 (List.length l)) l.
Definition object_to_sheet_row (paths : list (string * list (nat * string))) : object_rows :=
  fold_left (fun d cr =>
    fold_left (fun d (e : nat * (nat * string)) =>
                 let '(i, (o, path)) := e in set_object o (fst cr, i + 2, path) d)
              (enumerate (snd cr)) d) paths [].

(** [compute_cell_link], exports.py:128-140 *)
Definition compute_cell_link (rows : object_rows) (v : value) : res (option (string * nat)) :=
  match v with
  | VDict ((_, x) :: _) => Ok (Some (type_name x, 2))
  | VList (x :: l) => Ok (if is_builtins_list (x :: l) then None else Some (type_name x, 2))
  | VSet (x :: l) => if is_builtins_list (x :: l) then Ok None else Err TypeError
  | VObj _ _ i _ => Ok (match get_object rows i with
                        | Some (t, row, _) => Some (t, row + 2)
                        | None => None
                        end)
  | _ => Ok None
  end.

(** [write_value_to_cell], exports.py:142-170 *)
Definition cell_content (rows : object_rows) (v : value) : scalar :=
  match v with
  | VDict d => CText ("Dict of " ++ nat_str (List.length d) ++ " items")
  | VList l => if is_builtins_list l then CText (str v)
               else CText ("List of " ++ nat_str (List.length l) ++ " items")
  | VSet l => CText ("Set of " ++ nat_str (List.length l) ++ " items")
  | VFloat q => CNum (round6 q)
  | VObj _ _ i _ => match get_object rows i with
                    | Some (_, _, path) => CText path
                    | None => CText (str v)
                    end
  | _ => CText (str v)
  end.
Definition value_cell (rows : object_rows) (v : value) : res cell :=
  let* l := compute_cell_link rows v in
  Ok {| content := cell_content rows v; link := l |}.

(** The value of the second column, [obj.name], exports.py:176-179; openpyxl takes no
    containers nor objects *)
Definition name_cell (a : list (string * value)) : res cell :=
  match get "name" a with
  | None => Ok (text "No name in model")
  | Some VNone => Ok blank
  | Some (VBool b) => Ok (bare (CBool b))
  | Some (VInt z) => Ok (bare (CInt z))
  | Some (VFloat q) => Ok (bare (CNum q))
  | Some (VStr s) => Ok (text s)
  | Some _ => Err ValueError
  end.

(** [write_object_to_row], exports.py:172-187 *)
Definition object_row (rows : object_rows) (a : list (string * value)) (path : string) : res (list cell) :=
  let* name := name_cell a in
  let* values := mapM (fun kx => value_cell rows (snd kx)) (columns a) in
  Ok (text path :: name :: values).

(** The first sheet: [write_object_id], exports.py:193-228, and exports.py:232-234 *)
Definition main_sheet (rows : object_rows) (m c : string) (a : list (string * value)) : res sheet :=
  let* _ := of_option AttributeError (get "name" a) in
  let* name := name_cell a in
  let* row := object_row rows a "" in
  Ok {| title := ("Object " ++ c)%string;
        grid := [[text "Module"; text "Class"; text "name"]; [text m; text c; name];
                 header_row a; row] |}.

(** The sheet of a class, exports.py:237-257 *)
Definition class_sheet (v : value) (rows : object_rows) (cr : string * list (nat * string)) : res sheet :=
  let* first := of_option IndexError (hd_error (snd cr)) in
  let ids := match object_of v (fst first) with
             | VObj m c _ _ => [text m; text c]
             | _ => [text "No Module"; text "No class name"]
             end in
  let* g := foldM (fun g (e : nat * string) =>
                     let* r := of_option KeyError (get_object rows (fst e)) in
                     let '(_, row, path) := r in
                     let* cells := object_row rows (dict_of (object_of v (fst e))) path in
                     Ok (set_row (row + 2) cells g))
                  (snd cr) [[text "Module"; text "Class"]; ids; []] in
  let last_object := last (snd cr) first in
  Ok {| title := fst cr;
        grid := set_row 3 (header_row (dict_of (object_of v (fst last_object)))) g |}.

(** What is loaded of what was saved: an empty string is saved as an empty cell, and a string
    that starts with [=] as a formula, which has no value when loaded. *)
Definition stored_scalar (c : scalar) : scalar :=
  match c with
  | CText "" => CNone
  | CText (String "=" (String _ _)) => CNone
  | _ => c
  end.
Definition stored (c : cell) : cell := {| content := stored_scalar (content c); link := link c |}.
Definition stored_sheet (s : sheet) : sheet :=
  {| title := title s; grid := map (map stored) (grid s) |}.

(** [XLSXWriter(object_)], exports.py:78-104 and 230-257, then saved and loaded *)
Definition written (v : value) : res workbook :=
  match v with
  | VObj m c _ a =>
    let paths := paths_of v in
    let rows := object_to_sheet_row paths in
    let* main := main_sheet rows m c a in
    let* others := mapM (class_sheet v rows) paths in
    Ok (map stored_sheet (main :: others))
  | _ => Err AttributeError
  end.

(** ** Reading, excel_reader.py *)

Definition width (s : sheet) : nat := fold_right (fun r n => max (List.length r) n) 0 (grid s).
Definition height (s : sheet) : nat := List.length (grid s).
(** [sheet.cell(row, column)], from 1 *)
Definition cell_at (s : sheet) (row column : nat) : cell :=
  nth (column - 1) (nth (row - 1) (grid s) []) blank.
(** the cells of a row, from a column on *)
Definition row_from (s : sheet) (row column : nat) : list cell :=
  map (cell_at s row) (seq column (width s + 1 - column)).

Definition scalar_value (c : scalar) : value :=
  match c with
  | CNone => VNone | CBool b => VBool b | CInt z => VInt z | CNum q => VFloat q | CText s => VStr s
  end.

(** [ExcelDataExtract], excel_reader.py:30-51; [extracted_data] is the rows of the cells *)
Record extract := {
  module_name : string; class_name : string; header : list scalar; rows_of : list (list cell) }.
Definition full_name (e : extract) : string := module_name e ++ "." ++ class_name e.

Definition scalar_eqb (c : scalar) (s : string) : bool :=
  match c with CText t => String.eqb t s | _ => false end.
Definition in_header (k : string) (h : list scalar) : bool := existsb (fun c => scalar_eqb c k) h.

(** [param.default if param.default != param.empty else "empty"], compared with ["empty"] *)
Definition no_default (d : option value) : bool :=
  match d with
  | None => true
  | Some (VStr s) => String.eqb s "empty"
  | Some _ => false
  end.

(** [missed_attribute], excel_reader.py:77-86 *)
Definition missed_attribute (e : extract) : res unit :=
  let* params := classes (full_name e) in
  if List.length (header e) =? List.length params then Ok tt
  else if existsb (fun p => negb (in_header (fst p) (header e)) && no_default (snd p)) params
       then Err ValueError
       else Ok tt.

(** [ExcelDataExtract.__init__] *)
Definition extract_of (m c : string) (h : list scalar) (data : list (list cell)) : res extract :=
  let e := {| module_name := m; class_name := c; header := h; rows_of := data |} in
  let* _ := missed_attribute e in Ok e.

(** [get_data], excel_reader.py:171-192 *)
Definition evaluated (v : value) : value :=
  match v with
  | VStr s => match literal s with Some w => w | None => v end
  | _ => v
  end.
Definition get_data (values : list value) (h : list scalar) (params : list (string * option value))
    : list (string * value) :=
  fold_left (fun d (av : scalar * value) =>
               match fst av with
               | CText a => match get a params with
                            | Some _ => put a (evaluated (snd av)) d
                            | None => d
                            end
               | _ => d
               end) (combine h values) [].

(** Calling a class: [__init__] sets each parameter to its argument, or its default value, as
    an attribute of the same name, and the name. *)
Definition init (e : extract) (params : list (string * option value)) (data : list (string * value)) : res value :=
  let* a := mapM (fun p => match get (fst p) data, snd p with
                           | Some x, _ => Ok (fst p, x)
                           | None, Some x => Ok (fst p, x)
                           | None, None => Err TypeError
                           end) params in
  let a := match get "name" a with Some _ => a | None => (a ++ [("name", VStr "")])%list end in
  Ok (VObj (module_name e) (class_name e) 0 a).

(** [if not object_.name: object_.name = ""] *)
Definition falsy (v : value) : bool :=
  match v with
  | VNone => true | VBool b => negb b | VInt z => Z.eqb z 0 | VFloat q => Qeq_bool q 0
  | VStr s => String.eqb s ""
  | VList l | VTuple l | VSet l => match l with [] => true | _ => false end
  | VDict d => match d with [] => true | _ => false end
  | VObj _ _ _ _ => false
  end.
Definition named (v : value) : value :=
  match v with
  | VObj m c i a => match get "name" a with
                    | Some n => if falsy n then VObj m c i (put "name" (VStr "") a) else v
                    | None => v
                    end
  | _ => v
  end.

(** [create_object], excel_reader.py:194-201 *)
Definition create_object (e : extract) (values : list value) : res value :=
  let* params := classes (full_name e) in
  let* o := init e params (get_data values (header e) params) in
  Ok (named o).

Section Reader.
Variable wb : workbook.

(** [get_location], excel_reader.py:119-136 *)
Definition get_location (l : string * nat) : res (string * nat) :=
  if existsb (fun s => String.eqb (title s) (fst l)) wb then Ok l else Err ValueError.

Definition has_word (w s : string) : bool :=
  match String.index 0 w s with Some _ => true | None => false end.

(** [update_attribute_values], excel_reader.py:138-169: [self.workbook[target]] is indexed with
    a pair, which no title is *)
Definition update_attribute_values (c : cell) (values : list value) : res value :=
  match content c with
  | CText s =>
    if has_word "Dict" s then Err KeyError
    else if existsb (fun w => has_word w s) ["Dict"; "List"; "Set"; "Tuple"] then Ok (VList values)
    else of_option IndexError (hd_error values)
  | _ => Err TypeError
  end.

Definition instances := list (string * list value).

(** a cell of the first sheet or of a sheet of one row, excel_reader.py:216-219 and 278-281 *)
Definition linked_value (inst : instances) (c : cell) : res value :=
  match link c with
  | None => Ok (scalar_value (content c))
  | Some l =>
    let* t := get_location l in
    let* values := of_option KeyError (get (fst t) inst) in
    update_attribute_values c values
  end.

(** [instantiate_main_object], excel_reader.py:203-223, and [process_single_hyperlink_row],
    excel_reader.py:266-286, are the same *)
Definition process_single_row (inst : instances) (key : string) (e : extract) : res instances :=
  let* row := of_option IndexError (hd_error (rows_of e)) in
  let* values := mapM (linked_value inst) row in
  let* o := create_object e values in
  Ok (put key [o] inst).

Definition text_of (c : scalar) : string := str (scalar_value c).

(** [process_sub_objects], excel_reader.py:225-246 *)
Definition process_sub_objects (c : cell) : res value :=
  match link c with
  | None => Ok (scalar_value (content c))
  | Some l =>
    let* t := get_location l in
    let* s := of_option KeyError (find (fun s => String.eqb (title s) (fst t)) wb) in
    let values := map (fun c => scalar_value (content c)) (row_from s (snd t) 2) in
    let* e := extract_of (text_of (content (cell_at s 2 1))) (text_of (content (cell_at s 2 2)))
                         (map content (row_from s 3 2)) [] in
    create_object e values
  end.

(** [process_multiple_hyperlink_rows], excel_reader.py:248-264 *)
Definition process_multiple_rows (inst : instances) (key : string) (e : extract) : res instances :=
  let* os := mapM (fun row => let* values := mapM process_sub_objects row in create_object e values)
                  (rows_of e) in
  Ok (put key os inst).

(** [process_simple_sheet], excel_reader.py:288-303 *)
Definition process_simple_sheet (inst : instances) (key : string) (e : extract) : res instances :=
  let* os := mapM (fun row => create_object e (map (fun c => scalar_value (content c)) row)) (rows_of e) in
  Ok (put key os inst).

(** the extraction of a sheet, [process_workbook], excel_reader.py:314-332 *)
Definition extract_sheet (s : sheet) : res (string * extract) :=
  let* e := extract_of (text_of (content (cell_at s 2 1))) (text_of (content (cell_at s 2 2)))
                       (map content (row_from s 3 2))
                       (map (fun r => row_from s r 2) (seq 4 (height s - 3))) in
  Ok (title s, e).

Definition has_link (c : cell) : bool := match link c with Some _ => true | None => false end.

(** a sheet of the stack, excel_reader.py:358-369 *)
Definition process_sheet (inst : instances) (ke : string * extract) : res instances :=
  let (key, e) := ke in
  if existsb (existsb has_link) (rows_of e)
  then if 1 <? List.length (rows_of e)
       then process_multiple_rows inst key e
       else process_single_row inst key e
  else process_simple_sheet inst key e.

(** [read_workbook], excel_reader.py:335-370: the stack is popped from the last sheet, the
    first sheet is the main one *)
Definition read_workbook : res value :=
  let* extracted := mapM extract_sheet wb in
  match extracted with
  | [] => Err IndexError
  | (key, e) :: others =>
    let* inst := foldM process_sheet (rev others) [] in
    let* inst := process_single_row inst key e in
    let* os := of_option KeyError (get key inst) in
    of_option IndexError (hd_error os)
  end.
End Reader.

(** [from_xlsx_stream] of what [to_xlsx_stream] wrote, core.py:283-290 and 534-537 *)
Definition exchanged (v : value) : res value :=
  let* wb := written v in read_workbook wb.

(** ** Catalogs *)

(** [check_duplicate_attributes], excel_reader.py:16-27 *)
Definition number (c : scalar) : option Q :=
  match c with
  | CBool b => Some (if b then 1 else 0)%Q
  | CInt z => Some (inject_Z z)
  | CNum q => Some q
  | _ => None
  end.
Definition scalars_eqb (c d : scalar) : bool :=
  match c, d with
  | CNone, CNone => true
  | CText s, CText s' => String.eqb s s'
  | _, _ => match number c, number d with
            | Some q, Some q' => Qeq_bool q q'
            | _, _ => false
            end
  end.
Fixpoint check_duplicates (seen l : list scalar) : option scalar :=
  match l with
  | [] => None
  | c :: l' => if existsb (scalars_eqb c) seen then Some c else check_duplicates (seen ++ [c])%list l'
  end.
Definition check_duplicate_attributes (l : list scalar) : option scalar := check_duplicates [] l.

(** the extraction of a sheet of a catalog, [process_workbook_catalog],
    excel_reader.py:379-401 *)
Definition extract_catalog_sheet (s : sheet) : res (string * extract) :=
  let h := map content (row_from s 2 1) in
  let* _ := match check_duplicate_attributes h with
            | Some c => if falsy (scalar_value c) then Ok tt else Err ValueError
            | None => Ok tt
            end in
  let* e := extract_of (text_of (content (cell_at s 1 1))) (text_of (content (cell_at s 1 2)))
                       h (map (fun r => map (fun c => bare (content c)) (row_from s r 1)) (seq 3 (height s - 2))) in
  Ok (title s, e).

(** [read_catalog], excel_reader.py:404-420 *)
Definition read_catalog (wb : workbook) : res instances :=
  let* extracted := mapM extract_catalog_sheet wb in
  foldM (fun inst ke => process_simple_sheet inst (fst ke) (snd ke)) (rev extracted) [].
End Excel.

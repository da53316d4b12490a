(** Model of the scripts of workflows: what Workflow.to_script writes
    (dessia_common/workflow/core.py:1301-1373, workflow/utils.py:14-78 and the _to_script
    methods of workflow/blocks.py), and what executing such a script does.

    A script is a list of statements, not a text.  Variables of the script have
    structured names, rendered by [render]; they and the imported classes are kept in
    separate name spaces.  Types, labels and positions of variables are left out, and
    positions of blocks are pairs of integers. *)
From Coq Require Import ZArith Bool String Ascii Arith List Decimal DecimalString.
From Verif Require Import Base ExecModel VariablesModel.
Import ListNotations.
Open Scope string_scope.
Open Scope list_scope.

(** ** Blocks *)

(** A class, as written by full_classname: its module and its name. *)
Record cls := mkCls { c_module : string; c_name : string }.
Definition cls_eqb (a b : cls) : bool := String.eqb (c_module a) (c_module b) && String.eqb (c_name a) (c_name b).

Definition in_blocks (n : string) : cls := mkCls "dessia_common.workflow.blocks" n.
Definition in_core (n : string) : cls := mkCls "dessia_common.workflow.core" n.
Definition in_typings (n : string) : cls := mkCls "dessia_common.typings" n.

(** DessiaFilter, core.py:851-855 *)
Record dfilter := mkFilter { f_attribute : string; f_operator : string; f_bound : Z; f_name : string }.

(** ScatterView and ParallelView, workflow/blocks.py:1550-1579 *)
Record pview := mkView { pv_parallel : bool; pv_attributes : list string; pv_name : string }.

Inductive view := PlotData | Markdown | CadView.

(** The block classes of workflow/blocks.py, but WorkflowBlock and ForEach, with the
    arguments of their constructors; subclasses are left out. *)
Inductive conf :=
| CInstantiate (c : cls)
| CClassMethod (c : cls) (m : string)
| CModelMethod (c : cls) (m : string)
| CSequence (n : nat)
| CConcatenate (n : nat)
| CUnpacker (indices : list Z)
| CFlatten
| CProduct (n : nat)
| CFilter (fs : list dfilter) (op : string)
| CView (v : view) (c : cls) (selector : string) (load : bool)
| COldView (v : view) (selector : string) (load : bool)        (* Deprecated... *)
| COldMultiPlot (attributes : list string) (load : bool)       (* DeprecatedMultiPlot *)
| CMultiPlot (selector : string) (attributes : list string) (load : bool)
| CMultiObject (selector : string) (views : list pview) (load : bool)
| CModelAttribute (a : string)
| CGetAttribute (c : cls) (a : string)
| CSetAttribute (c : cls) (a : string)
| CSum (n : nat)
| CSubstraction
| CConcatStrings (n : nat) (separator : string)
| CExport (c : cls) (m filename extension : string) (text : bool)
| CArchive (n : nat) (filename : string).

Definition dec (n : nat) : string := NilZero.string_of_uint (Nat.to_uint n).

Section Script.
Context {V : Type}.
(** a variable; its label stands for its name *)
Notation variable := (variable V string).
(** the inputs that _method_inputs (workflow/blocks.py:30-49) finds in the signature of a
    method of a class *)
Variable params : cls -> string -> list variable.
(** strings, as values *)
Variable text : string -> V.

Definition var (n : string) : variable := mkVar None false n.

(** ** Constructors of the blocks *)

(** The ports made by the constructors, workflow/blocks.py:89-93, 150-157, 220-232,
    300-304, 340-344, 538-541, 576-579, 608-612, 650-656, 701-704, 786-791, 847-853,
    944-949, 1018-1025, 1032-1040, 1167-1171, 1207-1211, 1258-1263, 1304-1307, 1341-1343,
    1372-1378, 1426-1441 and 1487-1495. *)
Definition ports (c : conf) : list variable * list variable :=
  match c with
  | CInstantiate k => (params k "__init__", [var "Model"])
  | CClassMethod k m => (params k m, [var "Return"])
  | CModelMethod k m => (var "Model" :: params k m, [var "Return"; var "Model"])
  | CSequence n | CConcatenate n => (map (fun i => var ("Sequence element " ++ dec i)%string) (seq 0 n), [var "Sequence"])
  | CUnpacker l => ([var "Sequence"], map (fun z => var ("Element " ++ NilZero.string_of_int (Z.to_int z))%string) l)
  | CFlatten => ([var "Sequence"], [var "Flattened sequence"])
  | CProduct n => (map (fun i => var ("Sequence " ++ dec i)%string) (seq 0 n), [var "Product"])
  | CFilter _ _ => ([var "Sequence"], [var "Filtered sequence"])
  | CView _ _ _ _ => ([var "Model"], [var "Display Object"])
  | COldView _ _ _ => ([var "Model to display"], [var "Display Object"])
  | COldMultiPlot _ _ => ([var "Input List"], [var "Display Object"])
  | CMultiPlot _ _ _ | CMultiObject _ _ _ => ([var "Sequence"], [var "Display Object"])
  | CModelAttribute _ => ([var "Model"], [var "Attribute value"])
  | CGetAttribute _ _ => ([var "Model"], [var "Attribute"])
  | CSetAttribute _ _ => ([var "Model"; var "Value"], [var "Model"])
  | CSum n => (map (fun i => var ("Sum element " ++ dec (S i))%string) (seq 0 n), [var "Sum"])
  | CSubstraction => ([var "+"; var "-"], [var "Substraction"])
  | CConcatStrings n _ =>
      (map (fun i => mkVar (Some (text "")) false ("Substring " ++ dec (S i))%string) (seq 0 n), [var "Concatenation"])
  | CExport _ _ f _ _ => ([var "Model"; mkVar (Some (text f)) false "Filename"], [var "Stream"])
  | CArchive n f => (map (fun i => var ("Export " ++ dec i)%string) (seq 0 n) ++ [mkVar (Some (text f)) false "Filename"], [var "Archive"])
  end.

(** A workflow: its diagram, its variables, its blocks in order, its documentation and
    its name.  A block: what it is, its name and its position; the WorkflowBlock of a
    ForEach comes with its own name and position. *)
Inductive wf :=
| Wf (d : workflow) (info : nat -> variable) (bs : list part) (doc name : string)
with part :=
| Part (k : kind) (name : string) (pos : Z * Z)
with kind :=
| KConf (c : conf)
| KWorkflow (w : wf)
| KForEach (w : wf) (name : string) (pos : Z * Z) (iter : nat).

Definition diagram (w : wf) := match w with Wf d _ _ _ _ => d end.
Definition info (w : wf) := match w with Wf _ i _ _ _ => i end.
Definition parts (w : wf) := match w with Wf _ _ b _ _ => b end.
Definition doc (w : wf) := match w with Wf _ _ _ x _ => x end.
Definition wname (w : wf) := match w with Wf _ _ _ _ n => n end.

(** WorkflowBlock, workflow/blocks.py:384-397; Variable.copy, workflow/core.py:139-153 *)
Definition copy_as (name : string) (x : variable) : res variable :=
  let* y := copy "" x in Ok (mkVar (v_default y) (v_lock y) name).
Definition wfblock_ports (w : wf) (name : string) : res (list variable * list variable) :=
  let* ins := mapM (fun v => copy_as (name ++ " - " ++ v_label (info w v))%string (info w v)) (inputs (diagram w)) in
  let* o := of_option AttributeError (output (diagram w)) in
  let* y := copy_as (v_label (info w o)) (info w o) in
  Ok (ins, [y]).

(** ForEach, workflow/blocks.py:460-478; indices are not negative. *)
Definition foreach_ports (w : wf) (name : string) (iter : nat) : res (list variable * list variable) :=
  let* p := wfblock_ports w name in
  let* _ := of_option IndexError (nth_error (fst p) iter) in
  let* ins := mapM (fun ix : nat * variable =>
                      if Nat.eqb (fst ix) iter then Ok (var ("Iterable input: " ++ v_label (snd ix))%string)
                      else copy_as ("Binding: " ++ v_label (snd ix))%string (snd ix)) (enumerate (fst p)) in
  Ok (ins, [var "Foreach output"]).

Definition constructed (p : part) : res (list variable * list variable) :=
  match p with
  | Part (KConf c) _ _ => Ok (ports c)
  | Part (KWorkflow w) n _ => wfblock_ports w n
  | Part (KForEach w n _ i) _ _ => foreach_ports w n i
  end.

(** ** Scripts *)

(** Names of the variables of a script: [n] times "sub_", then block_i, variable_i,
    pipe_i, blocks, pipes or workflow; and wfblock, that has no prefix. *)
Inductive base := NBlock (i : nat) | NVar (i : nat) | NPipe (i : nat) | NBlocks | NPipes | NWorkflow.
Inductive name := Sub (n : nat) (b : base) | NWfblock.

Definition base_eqb (a b : base) : bool :=
  match a, b with
  | NBlock i, NBlock j | NVar i, NVar j | NPipe i, NPipe j => Nat.eqb i j
  | NBlocks, NBlocks | NPipes, NPipes | NWorkflow, NWorkflow => true
  | _, _ => false
  end.
Definition name_eqb (a b : name) : bool :=
  match a, b with
  | Sub n x, Sub m y => Nat.eqb n m && base_eqb x y
  | NWfblock, NWfblock => true
  | _, _ => false
  end.

Definition render_base (b : base) : string :=
  match b with
  | NBlock i => ("block_" ++ dec i)%string
  | NVar i => ("variable_" ++ dec i)%string
  | NPipe i => ("pipe_" ++ dec i)%string
  | NBlocks => "blocks"
  | NPipes => "pipes"
  | NWorkflow => "workflow"
  end.
Fixpoint render_sub (n : nat) (s : string) : string :=
  match n with 0 => s | S m => ("sub_" ++ render_sub m s)%string end.
Definition render (x : name) : string :=
  match x with Sub n b => render_sub n (render_base b) | NWfblock => "wfblock" end.

(** Expressions: a text between quotes [q], which is not escaped; lists of numbers and of
    strings as python writes them; [EOpen] is a list whose bracket is not closed.
    Arguments without keyword have the keyword "". *)
Inductive expr :=
| EText (q : ascii) (s : string)
| ENat (n : nat)
| EBool (b : bool)
| EInts (l : list Z)
| EStrs (l : list string)
| EPos (p : Z * Z)
| EClass (n : string)
| EName (x : name)
| ECall (f : string) (args : list (string * expr))
| EList (l : list expr)
| ETuple (l : list expr)        (* one expression between brackets is that expression *)
| EOpen (l : list expr).

(** block.inputs[i] and block.outputs[i] *)
Inductive vref := VName (x : name) | VIn (x : name) (i : nat) | VOut (x : name) (i : nat).

Inductive stmt :=
| SDoc (s : string)                                   (* documentation = """s""" *)
| SBlock (x : name) (f : string) (args : list (string * expr))
| SLock (x : name) (i : nat)                          (* x.inputs[i].lock() *)
| SBlocks (x : name) (l : list name)
| SVar (x : name) (n : string)                        (* x = Variable(name='n', ...) *)
| SPipe (x : name) (s t : vref)                       (* x = Pipe(s, t) *)
| SPipes (x : name) (l : list name)
| SWorkflow (x bs ps : name) (o : vref) (n : string). (* x = Workflow(bs, ps, output=o, documentation=documentation, name="n") *)

Definition sq : ascii := "'".
Definition dq : ascii := """".

(** base_script, workflow/core.py:226-228 and workflow/blocks.py:758-760 *)
Definition base_script (n : string) (p : Z * Z) : list (string * expr) := [("name", EText dq n); ("position", EPos p)].
Definition display_base (n : string) (load : bool) (p : Z * Z) : list (string * expr) :=
  [("name", EText dq n); ("load_by_default", EBool load); ("position", EPos p)].

(** ['a', 'b'] out of the strings a and b: [', '.join] with quotes around, so that no
    string gives one empty text *)
Definition quoted (l : list string) : list expr :=
  match l with [] => [EText sq ""] | _ => map (EText sq) l end.

Definition view_name (v : view) : string :=
  match v with PlotData => "PlotData" | Markdown => "Markdown" | CadView => "CadView" end.
Definition selector_name (v : view) : string :=
  match v with PlotData => "PlotDataType" | Markdown => "MarkdownType" | CadView => "CadViewType" end.

(** the _to_script of the configurations of a MultiObject, workflow/blocks.py:1562-1564 and
    1577-1579 *)
Definition pview_class (v : pview) : string := if pv_parallel v then "ParallelView" else "ScatterView".
Definition pview_script (v : pview) : expr :=
  ECall (pview_class v)
    [("attributes", if pv_parallel v then EList (quoted (pv_attributes v)) else ETuple (quoted (pv_attributes v)));
     ("name", EText sq (pv_name v))].

Definition filter_script (f : dfilter) : expr :=
  ECall "DessiaFilter" [("attribute", EText sq (f_attribute f)); ("comparison_operator", EText sq (f_operator f));
                        ("bound", EInts [f_bound f]); ("name", EText sq (f_name f))].

Definition typed (t : string) (c : cls) (n : string) : expr := ECall t [("", EClass (c_name c)); ("", EText sq n)].
Definition attribute_script (c : cls) (a : string) : expr :=
  ECall "AttributeType" [("", EClass (c_name c)); ("name", EText dq a)].

(** The _to_script of each block class, workflow/blocks.py:131-136, 197-206, 279-288,
    325-328, 366-369, 562-565, 599-602, 635-638, 681-690, 762-771, 827-830, 892-895,
    978-987, 1192-1195, 1238-1246, 1287-1292, 1332-1335, 1349-1352, 1403-1408, 1466-1475
    and 1531-1534: the imports, the class called and its arguments.  [n_in] is the number
    of inputs of the block. *)
Definition conf_script (c : conf) (n_in : nat) (n : string) (p : Z * Z)
  : res (list cls * (string * list (string * expr))) :=
  match c with
  | CInstantiate k =>
      Ok ([k; in_blocks "InstantiateModel"], ("InstantiateModel", ("model_class", EClass (c_name k)) :: base_script n p))
  | CClassMethod k m =>
      Ok ([in_typings "ClassMethodType"; k; in_blocks "ClassMethod"],
          ("ClassMethod", ("method_type", typed "ClassMethodType" k m) :: base_script n p))
  | CModelMethod k m =>
      Ok ([in_typings "MethodType"; k; in_blocks "ModelMethod"],
          ("ModelMethod", ("method_type", typed "MethodType" k m) :: base_script n p))
  | CSequence _ => Ok ([in_blocks "Sequence"], ("Sequence", ("number_arguments", ENat n_in) :: base_script n p))
  | CConcatenate _ => Ok ([in_blocks "Concatenate"], ("Concatenate", ("number_arguments", ENat n_in) :: base_script n p))
  | CUnpacker l => Ok ([in_blocks "Unpacker"], ("Unpacker", ("indices", EInts l) :: base_script n p))
  | CFlatten => Ok ([in_blocks "Flatten"], ("Flatten", base_script n p))
  | CProduct k => Ok ([in_blocks "Product"], ("Product", ("number_list", ENat k) :: base_script n p))
  | CFilter fs op =>
      Ok ([mkCls "dessia_common.core" "DessiaFilter"; in_blocks "Filter"],
          ("Filter", ("filters", EOpen (map filter_script fs)) :: ("logical_operator", EText sq op) :: base_script n p))
  | CView v k s load =>
      Ok ([in_blocks (view_name v); k; in_typings (selector_name v)],
          (view_name v, ("selector", ECall (selector_name v) [("class_", EClass (c_name k)); ("name", EText sq s)])
                        :: display_base n load p))
  | COldView _ _ _ => Err AttributeError                            (* self.selector.class_ of a string *)
  | COldMultiPlot l load =>
      Ok ([in_blocks "DeprecatedMultiPlot"], ("MultiPlot", ("attributes", EStrs l) :: display_base n load p))
  | CMultiPlot s l load =>
      Ok ([in_blocks "MultiPlot"],
          ("MultiPlot", ("selector_name", EText sq s) :: ("attributes", EStrs l) :: display_base n load p))
  | CMultiObject s vs load =>
      Ok (map (fun v => in_blocks (pview_class v)) vs ++ [in_blocks "MultiObject"],
          ("MultiObject", ("selector_name", EText sq s) :: ("configurations", EList (map pview_script vs))
                          :: display_base n load p))
  | CModelAttribute a =>
      Ok ([in_blocks "ModelAttribute"], ("ModelAttribute", ("attribute_name", EText sq a) :: base_script n p))
  | CGetAttribute k a =>
      Ok ([in_typings "AttributeType"; k; in_blocks "GetModelAttribute"],
          ("GetModelAttribute", ("attribute_type", attribute_script k a) :: base_script n p))
  | CSetAttribute k a =>
      Ok ([in_blocks "SetModelAttribute"],
          ("SetModelAttribute", ("attribute_type", attribute_script k a) :: base_script n p))
  | CSum k => Ok ([in_blocks "Sum"], ("Sum", ("number_elements", ENat k) :: base_script n p))
  | CSubstraction => Ok ([in_blocks "Substraction"], ("Substraction", base_script n p))
  | CConcatStrings k s =>
      Ok ([in_blocks "ConcatenateStrings"],
          ("ConcatenateStrings", [("number_elements", ENat k); ("separator", EText sq s); ("name", EText sq n)]))
  | CExport k m f e t =>
      Ok ([in_blocks "Export"; in_typings "MethodType"; k],
          ("Export", ("method_type", typed "MethodType" k m) :: ("filename", EText sq f) :: ("extension", EText sq e)
                     :: ("text", EBool t) :: base_script n p))
  | CArchive k f =>
      Ok ([in_blocks "Archive"], ("Archive", ("number_exports", ENat k) :: ("filename", EText sq f) :: base_script n p))
  end.

(** The lines that lock inputs, workflow/utils.py:62-64. *)
Fixpoint lock_script (x : name) (i : nat) (ins : list variable) : res (list stmt) :=
  match ins with
  | [] => Ok []
  | v :: ins' =>
    let* l := is_locked v in
    let* r := lock_script x (S i) ins' in
    Ok (if l then SLock x i :: r else r)
  end.

(** blocks_to_script, workflow/utils.py:51-67, but for the last line: imports and
    statements of the blocks from [i] on.  [script] writes a block with the given number
    of inputs: its imports, the statements before, the class called and its arguments. *)
Definition part_lines := res (list cls * list stmt * (string * list (string * expr))).
Definition blocks_script (script : part -> nat -> part_lines) (n : nat) (info : nat -> variable)
  : nat -> list part -> list block -> res (list cls * list stmt) :=
  fix go i ps bs :=
    match ps, bs with
    | p :: ps', b :: bs' =>
      let* s := script p (length (b_in b)) in
      let x := Sub n (NBlock i) in
      let* locks := lock_script x 0 (map info (b_in b)) in
      let* r := go (S i) ps' bs' in
      Ok (fst (fst s) ++ fst r, snd (fst s) ++ SBlock x (fst (snd s)) (snd (snd s)) :: locks ++ snd r)
    | _, _ => Ok ([], [])
    end.

(** pipes_to_script, workflow/core.py:1350-1373: the side of a port is not read. *)
Definition source_script (n : nat) (a : address) : vref :=
  match a with ANbv k => VName (Sub n (NVar k)) | APort b _ k => VOut (Sub n (NBlock b)) k end.
Definition target_script (n : nat) (a : address) : vref :=
  match a with ANbv k => VName (Sub n (NVar k)) | APort b _ k => VIn (Sub n (NBlock b)) k end.
Definition pipes_script (n : nat) (d : workflow) : res (list stmt) :=
  let* l := mapM (fun ip : nat * (nat * nat) =>
                    let* a := variable_indices d (fst (snd ip)) in
                    let* b := variable_indices d (snd (snd ip)) in
                    Ok (SPipe (Sub n (NPipe (fst ip))) (source_script n a) (target_script n b))) (enumerate (pipes d)) in
  Ok (l ++ [SPipes (Sub n NPipes) (map (fun i => Sub n (NPipe i)) (seq 0 (length (pipes d))))]).

(** nonblock_variables_to_script, workflow/utils.py:70-78, and Variable._to_script,
    workflow/core.py:155-167 *)
Definition nbvs_script (n : nat) (w : wf) : list stmt :=
  map (fun kv : nat * nat => SVar (Sub n (NVar (fst kv))) (v_label (info w (snd kv)))) (enumerate (nonblock_variables (diagram w))).

(** _to_script of Workflow, workflow/core.py:1301-1335; of WorkflowBlock and ForEach,
    workflow/blocks.py:436-447 and 517-526. *)
Fixpoint wf_script (n : nat) (w : wf) {struct w} : res (list cls * list stmt) :=
  match w with
  | Wf d info bs doc nm =>
    let* o := of_option ValueError (output d) in
    let* a := variable_indices d o in
    let* b := blocks_script (part_script n) n info 0 bs (blocks d) in
    let* ps := pipes_script n d in
    let* out := match a with
                | ANbv _ => Err TypeError
                | APort i _ k => Ok (VOut (Sub n (NBlock i)) k)
                end in
    Ok (fst b ++ map (fun _ => in_core "Variable") (nonblock_variables d)
          ++ (match pipes d with [] => [] | _ => [in_core "Pipe"] end) ++ [in_core "Workflow"],
        SDoc doc :: snd b ++ SBlocks (Sub n NBlocks) (map (fun i => Sub n (NBlock i)) (seq 0 (length (blocks d))))
          :: nbvs_script n w ++ ps
          ++ [SWorkflow (Sub n NWorkflow) (Sub n NBlocks) (Sub n NPipes) out nm])
  end
with part_script (n : nat) (p : part) (n_in : nat) {struct p} : part_lines :=
  match p with
  | Part k nm pos =>
    match k with
    | KConf c => let* s := conf_script c n_in nm pos in Ok (fst s, [], snd s)
    | KWorkflow w =>
        let* s := wf_script (S n) w in
        Ok (fst s ++ [in_blocks "WorkflowBlock"], snd s,
            ("WorkflowBlock", ("workflow", EName (Sub (S n) NWorkflow)) :: base_script nm pos))
    | KForEach w bn bp i =>
        let* s := wf_script (S n) w in
        Ok (fst s ++ [in_blocks "WorkflowBlock"] ++ [in_blocks "ForEach"],
            snd s ++ [SBlock NWfblock "WorkflowBlock" (("workflow", EName (Sub (S n) NWorkflow)) :: base_script bn bp)],
            ("ForEach", ("workflow_block", EName NWfblock) :: ("iter_input_index", ENat i) :: base_script nm pos))
    end
  end.

(** get_import_dict and imports_to_str, workflow/utils.py:24-47: the lines
    "from module import names". *)
Definition add_import (d : list (string * list string)) (c : cls) : list (string * list string) :=
  (fix go d :=
     match d with
     | [] => [(c_module c, [c_name c])]
     | (m, l) :: d' => if String.eqb m (c_module c) then (m, if memb String.eqb (c_name c) l then l else l ++ [c_name c]) :: d'
                       else (m, l) :: go d'
     end) d.
Definition import_dict (l : list cls) : list (string * list string) := fold_left add_import l [].

(** to_script, workflow/core.py:1337-1348 *)
Definition to_script (w : wf) : res (list (string * list string) * list stmt) :=
  let* s := wf_script 0 w in Ok (import_dict (fst s), snd s).

(** ** Executing a script *)

(** What the names of a script hold. *)
Inductive obj :=
| OBlock (p : part) (ins outs : list nat)
| OVar (v : nat)
| OPipe (s t : nat)
| OBlocks (l : list (part * block))
| OPipes (l : list (nat * nat))
| OWf (w : wf).

(** values of expressions; [VInst] is an instance of a class that is not a block *)
Inductive val :=
| VText (s : string) | VNat (n : nat) | VBool (b : bool) | VInts (l : list Z) | VPos (p : Z * Z)
| VClass (c : cls) | VInst (c : cls) (args : list (string * val)) | VSeq (l : list val)
| VWf (w : wf) | VPart (p : part).

(** State: the variables of the script, [documentation], the variables of workflows built
    so far and the identity of the next one. *)
Record st := mkSt { env : name -> option obj; docu : option string; heap : nat -> variable; next : nat }.

(** The class a name stands for after the imports: the last one imported under it. *)
Fixpoint lookup (d : list (string * list string)) (n : string) : option cls :=
  match d with
  | [] => None
  | (m, l) :: d' => match lookup d' n with
                    | Some c => Some c
                    | None => if memb String.eqb n l then Some (mkCls m n) else None
                    end
  end.
Definition resolve (d : list (string * list string)) (n : string) : res cls := of_option NameError (lookup d n).

Section Exec.
Variable imports : list (string * list string).

Fixpoint eval (s : st) (e : expr) {struct e} : res val :=
  match e with
  | EText _ x => Ok (VText x)
  | ENat n => Ok (VNat n)
  | EBool b => Ok (VBool b)
  | EInts l => Ok (VInts l)
  | EStrs l => Ok (VSeq (map VText l))
  | EPos p => Ok (VPos p)
  | EClass n => let* c := resolve imports n in Ok (VClass c)
  | EName x => match env s x with
               | Some (OWf w) => Ok (VWf w)
               | Some (OBlock p _ _) => Ok (VPart p)
               | Some _ => Err TypeError
               | None => Err NameError
               end
  | ECall f args =>
      let* c := resolve imports f in
      let* vs := (fix go l := match l with
                              | [] => Ok []
                              | (k, e) :: l' => let* v := eval s e in let* r := go l' in Ok ((k, v) :: r)
                              end) args in
      Ok (VInst c vs)
  | EList l =>
      let* vs := (fix go l := match l with
                              | [] => Ok []
                              | e :: l' => let* v := eval s e in let* r := go l' in Ok (v :: r)
                              end) l in
      Ok (VSeq vs)
  | ETuple [e] => eval s e
  | ETuple l =>
      let* vs := (fix go l := match l with
                              | [] => Ok []
                              | e :: l' => let* v := eval s e in let* r := go l' in Ok (v :: r)
                              end) l in
      Ok (VSeq vs)
  | EOpen _ => Err SyntaxError
  end.
Definition eval_args (s : st) (args : list (string * expr)) : res (list (string * val)) :=
  mapM (fun a => let* v := eval s (snd a) in Ok (fst a, v)) args.

(** *** Arguments of the constructors *)
Definition get (k : string) (args : list (string * val)) : option val :=
  option_map snd (find (fun a => String.eqb k (fst a)) args).
(** no argument but those of the signature *)
Definition only (ks : list string) (args : list (string * val)) : res unit :=
  if forallb (fun a => memb String.eqb (fst a) ks) args then Ok tt else Err TypeError.
Definition as_text (v : option val) : res string := match v with Some (VText s) => Ok s | _ => Err TypeError end.
Definition as_nat (v : option val) : res nat := match v with Some (VNat n) => Ok n | _ => Err TypeError end.
Definition as_bool (v : option val) : res bool := match v with Some (VBool b) => Ok b | _ => Err TypeError end.
Definition as_pos (v : option val) : res (Z * Z) :=
  match v with Some (VPos p) => Ok p | None => Ok (0%Z, 0%Z) | _ => Err TypeError end.
(** a string is a sequence of strings of one character *)
Definition as_texts (v : option val) : res (list string) :=
  match v with
  | Some (VSeq l) => mapM (fun x => as_text (Some x)) l
  | Some (VText s) => Ok (map (fun c => String c "") (list_ascii_of_string s))
  | _ => Err TypeError
  end.
(** MethodType(class_, name), AttributeType(class_, name) and the types of views,
    typings.py:26-31, 66-71 and 109-135 *)
Definition as_typed (t : cls) (v : option val) : res (cls * string) :=
  match v with
  | Some (VInst c [(k1, VClass x); (k2, VText n)]) =>
      if cls_eqb c t && (String.eqb k1 "" || String.eqb k1 "class_") && (String.eqb k2 "" || String.eqb k2 "name")
      then Ok (x, n) else Err TypeError
  | _ => Err TypeError
  end.
Definition as_pview (v : val) : res pview :=
  match v with
  | VInst c args =>
      let* l := as_texts (get "attributes" args) in
      let* n := as_text (get "name" args) in
      if cls_eqb c (in_blocks "ParallelView") then Ok (mkView true l n)
      else if cls_eqb c (in_blocks "ScatterView") then Ok (mkView false l n)
      else Err TypeError
  | _ => Err TypeError
  end.

(** A constructor of workflow/blocks.py, on its keyword arguments.  Default values of
    arguments always given by scripts are left out, and arguments of the wrong kind are
    refused. *)
Definition build (c : cls) (args : list (string * val)) : res part :=
  let is n := cls_eqb c (in_blocks n) in
  let* nm := as_text (get "name" args) in
  let* pos := as_pos (get "position" args) in
  let conf x := Ok (Part (KConf x) nm pos) in
  let sig ks := only ("name" :: "position" :: ks) args in
  let dsig ks := only ("name" :: "position" :: "load_by_default" :: ks) args in
  let load := as_bool (get "load_by_default" args) in
  let display v :=
    let* _ := dsig ["selector"] in
    let* kx := as_typed (in_typings (selector_name v)) (get "selector" args) in
    let* b := load in conf (CView v (fst kx) (snd kx) b) in
  if is "InstantiateModel" then
    let* _ := sig ["model_class"] in
    match get "model_class" args with Some (VClass k) => conf (CInstantiate k) | _ => Err TypeError end
  else if is "ClassMethod" then
    let* _ := sig ["method_type"] in
    let* km := as_typed (in_typings "ClassMethodType") (get "method_type" args) in conf (CClassMethod (fst km) (snd km))
  else if is "ModelMethod" then
    let* _ := sig ["method_type"] in
    let* km := as_typed (in_typings "MethodType") (get "method_type" args) in
    Ok (Part (KConf (CModelMethod (fst km) (snd km)))
          (if String.eqb nm "" then ("Model method: " ++ snd km)%string else nm) pos)
  else if is "Sequence" then
    let* _ := sig ["number_arguments"] in let* n := as_nat (get "number_arguments" args) in conf (CSequence n)
  else if is "Concatenate" then
    let* _ := sig ["number_arguments"] in let* n := as_nat (get "number_arguments" args) in conf (CConcatenate n)
  else if is "Unpacker" then
    let* _ := sig ["indices"] in
    match get "indices" args with Some (VInts l) => conf (CUnpacker l) | _ => Err TypeError end
  else if is "Flatten" then let* _ := sig [] in conf CFlatten
  else if is "Product" then
    let* _ := sig ["number_list"] in let* n := as_nat (get "number_list" args) in conf (CProduct n)
  else if is "PlotData" then display PlotData
  else if is "Markdown" then display Markdown
  else if is "CadView" then display CadView
  else if is "MultiPlot" then
    let* _ := dsig ["selector_name"; "attributes"] in
    let* s := as_text (get "selector_name" args) in
    let* l := as_texts (get "attributes" args) in
    let* b := load in conf (CMultiPlot s l b)
  else if is "MultiObject" then
    let* _ := dsig ["selector_name"; "configurations"] in
    let* s := as_text (get "selector_name" args) in
    let* l := match get "configurations" args with Some (VSeq l) => mapM as_pview l | _ => Err TypeError end in
    let* b := load in conf (CMultiObject s l b)
  else if is "ModelAttribute" then
    let* _ := sig ["attribute_name"] in let* a := as_text (get "attribute_name" args) in conf (CModelAttribute a)
  else if is "GetModelAttribute" then
    let* _ := sig ["attribute_type"] in
    let* ka := as_typed (in_typings "AttributeType") (get "attribute_type" args) in conf (CGetAttribute (fst ka) (snd ka))
  else if is "SetModelAttribute" then
    let* _ := sig ["attribute_type"] in
    let* ka := as_typed (in_typings "AttributeType") (get "attribute_type" args) in conf (CSetAttribute (fst ka) (snd ka))
  else if is "Sum" then
    let* _ := sig ["number_elements"] in let* n := as_nat (get "number_elements" args) in conf (CSum n)
  else if is "Substraction" then let* _ := sig [] in conf CSubstraction
  else if is "ConcatenateStrings" then
    let* _ := sig ["number_elements"; "separator"] in
    let* n := as_nat (get "number_elements" args) in
    let* s := as_text (get "separator" args) in conf (CConcatStrings n s)
  else if is "Export" then
    let* _ := sig ["method_type"; "text"; "extension"; "filename"] in
    let* km := as_typed (in_typings "MethodType") (get "method_type" args) in
    let* t := as_bool (get "text" args) in
    let* e := as_text (get "extension" args) in
    let* f := as_text (get "filename" args) in
    conf (CExport (fst km) (snd km) (if String.eqb f "" then "export" else f) e t)
  else if is "Archive" then
    let* _ := sig ["number_exports"; "filename"] in
    let* n := as_nat (get "number_exports" args) in
    let* f := as_text (get "filename" args) in conf (CArchive n f)
  else if is "WorkflowBlock" then
    let* _ := sig ["workflow"] in
    match get "workflow" args with Some (VWf w) => Ok (Part (KWorkflow w) nm pos) | _ => Err TypeError end
  else if is "ForEach" then
    let* _ := sig ["workflow_block"; "iter_input_index"] in
    let* i := as_nat (get "iter_input_index" args) in
    match get "workflow_block" args with
    | Some (VPart (Part (KWorkflow w) bn bp)) => Ok (Part (KForEach w bn bp i) nm pos)
    | _ => Err TypeError
    end
  else Err TypeError.

(** *** Statements *)
Definition set (s : st) (x : name) (o : obj) : st :=
  mkSt (fun y => if name_eqb x y then Some o else env s y) (docu s) (heap s) (next s).
(** new variables of a workflow *)
Definition alloc (s : st) (l : list variable) : st * list nat :=
  (mkSt (env s) (docu s)
     (fun v => if (next s <=? v)%nat && (v <? next s + length l)%nat then nth (v - next s) l (var "") else heap s v)
     (next s + length l),
   seq (next s) (length l)).

Definition block_of (s : st) (x : name) : res (part * block) :=
  match env s x with
  | Some (OBlock p ins outs) => Ok (p, mkBlock ins outs)
  | Some _ => Err AttributeError
  | None => Err NameError
  end.
Definition deref (s : st) (r : vref) : res nat :=
  match r with
  | VName x => match env s x with Some (OVar v) => Ok v | Some _ => Err TypeError | None => Err NameError end
  | VIn x i => let* b := block_of s x in of_option IndexError (nth_error (b_in (snd b)) i)
  | VOut x i => let* b := block_of s x in of_option IndexError (nth_error (b_out (snd b)) i)
  end.
(** the class must be the one of workflow/core.py *)
Definition core_class (n : string) : res unit :=
  let* c := resolve imports n in if cls_eqb c (in_core n) then Ok tt else Err TypeError.

Definition exec (s : st) (x : stmt) : res st :=
  match x with
  | SDoc d => Ok (mkSt (env s) (Some d) (heap s) (next s))
  | SBlock x f args =>
      let* c := resolve imports f in
      let* vs := eval_args s args in
      let* p := build c vs in
      let* io := constructed p in
      let '(s1, ins) := alloc s (fst io) in
      let '(s2, outs) := alloc s1 (snd io) in
      Ok (set s2 x (OBlock p ins outs))
  | SLock x i =>
      let* v := deref s (VIn x i) in
      let r := lock None (heap s v) in
      match snd r with
      | Some e => Err e
      | None => Ok (mkSt (env s) (docu s) (upd (heap s) v (fst r)) (next s))
      end
  | SBlocks x l => let* bs := mapM (block_of s) l in Ok (set s x (OBlocks bs))
  | SVar x n =>
      let* _ := core_class "Variable" in
      let '(s1, vs) := alloc s [var n] in
      let* v := of_option IndexError (nth_error vs 0) in
      Ok (set s1 x (OVar v))
  | SPipe x a b =>
      let* _ := core_class "Pipe" in
      let* u := deref s a in
      let* v := deref s b in
      Ok (set s x (OPipe u v))
  | SPipes x l =>
      let* ps := mapM (fun y => match env s y with
                                | Some (OPipe u v) => Ok (u, v)
                                | Some _ => Err TypeError
                                | None => Err NameError
                                end) l in
      Ok (set s x (OPipes ps))
  | SWorkflow x bs ps o n =>
      let* _ := core_class "Workflow" in
      match env s bs, env s ps with
      | Some (OBlocks bl), Some (OPipes pl) =>
          let* out := deref s o in
          let* d := of_option NameError (docu s) in
          Ok (set s x (OWf (Wf (mkWf (map snd bl) pl (Some out)) (heap s) (map fst bl) d n)))
      | None, _ | _, None => Err NameError
      | _, _ => Err TypeError
      end
  end.
End Exec.

(** Texts between quotes are not escaped: one that holds its quote, a backslash or, but
    for the documentation, a new line does not come back.  Such scripts are refused
    altogether, as are unclosed brackets. *)
Definition plain (q : ascii) (multiline : bool) (s : string) : bool :=
  forallb (fun c => negb (Ascii.eqb c q) && negb (Ascii.eqb c "\") && (multiline || negb (Ascii.eqb c "010")))
    (list_ascii_of_string s).
Fixpoint expr_parses (e : expr) : bool :=
  match e with
  | EText q s => plain q false s
  | ECall _ args => (fix go l := match l with [] => true | (_, e) :: l' => expr_parses e && go l' end) args
  | EList l | ETuple l => (fix go l := match l with [] => true | e :: l' => expr_parses e && go l' end) l
  | EOpen _ => false
  | _ => true
  end.
Definition parses (x : stmt) : bool :=
  match x with
  | SDoc s => plain dq true s
  | SBlock _ _ args => forallb (fun a => expr_parses (snd a)) args
  | SVar _ n => plain sq false n
  | SWorkflow _ _ _ _ n => plain dq false n
  | _ => true
  end.

(** Executing a whole script, and the workflow it leaves in the variable [workflow]. *)
Definition start : st := mkSt (fun _ => None) None (fun _ => var "") 0.
Definition run_state (script : list (string * list string) * list stmt) : res st :=
  if forallb parses (snd script) then foldM (exec (fst script)) (snd script) start else Err SyntaxError.
Definition run_script (script : list (string * list string) * list stmt) : res wf :=
  let* s := run_state script in
  match env s (Sub 0 NWorkflow) with Some (OWf w) => Ok w | Some _ => Err TypeError | None => Err NameError end.
End Script.

(** Model of saved workflows: Workflow.to_dict and dict_to_object
    (dessia_common/workflow/core.py:757-775, 777-809 and 2302-2353), and those of the variables,
    blocks and steps they hold (workflow/core.py:109-126, 241-252 and 311-343,
    workflow/blocks.py).

    Dictionaries are kept as dictionaries where readers look for keys; the ports of a
    block, and what it nests, are kept apart.  Types of variables are left out, and so is
    what a dictionary holds besides: pretty types, package mix, inputs and outputs of a
    workflow, which are not read.  Positions are pairs of integers.  Texts that
    [deserialize] takes for names of classes (utils/types.py:24-43) are left out, and so
    are the keys only older versions wrote. *)
From Coq Require Import ZArith Bool String Ascii Arith List.
From Verif Require Import Base ExecModel VariablesModel WiringModel ScriptModel.
Import ListNotations.
Open Scope string_scope.
Open Scope list_scope.

(** List comprehensions, in the form recursive functions need. *)
Section Lists.
Context {A B C : Type}.
Variable f : A -> B -> res C.
Fixpoint map2M (l : list A) (m : list B) : res (list C) :=
  match l, m with
  | a :: l', b :: m' => let* c := f a b in let* r := map2M l' m' in Ok (c :: r)
  | _, _ => Ok []
  end.
End Lists.
Section List1.
Context {A C : Type}.
Variable f : A -> res C.
Fixpoint map1M (l : list A) : res (list C) :=
  match l with
  | [] => Ok []
  | a :: l' => let* c := f a in let* r := map1M l' in Ok (c :: r)
  end.
End List1.

(** ** Dictionaries *)
Inductive jv :=
| JNull | JText (s : string) | JInt (z : Z) | JBool (b : bool) | JList (l : list jv) | JDict (l : list (string * jv)).

Definition get (k : string) (d : list (string * jv)) : option jv :=
  option_map snd (find (fun e => String.eqb k (fst e)) d).
(** [d[k]] *)
Definition item (k : string) (d : list (string * jv)) : res jv := of_option KeyError (get k d).

Definition as_text (v : jv) : res string := match v with JText s => Ok s | _ => Err TypeError end.
Definition as_int (v : jv) : res Z := match v with JInt z => Ok z | _ => Err TypeError end.
Definition as_nat (v : jv) : res nat := let* z := as_int v in Ok (Z.to_nat z).
Definition as_bool (v : jv) : res bool := match v with JBool b => Ok b | _ => Err TypeError end.
Definition as_list (v : jv) : res (list jv) := match v with JList l => Ok l | _ => Err TypeError end.
Definition as_dict (v : jv) : res (list (string * jv)) := match v with JDict l => Ok l | _ => Err TypeError end.
Definition as_pos (v : jv) : res (Z * Z) := match v with JList [JInt x; JInt y] => Ok (x, y) | _ => Err TypeError end.

Definition text_at (k : string) d : res string := let* v := item k d in as_text v.
Definition nat_at (k : string) d : res nat := let* v := item k d in as_nat v.
Definition bool_at (k : string) d : res bool := let* v := item k d in as_bool v.
Definition dict_at (k : string) d : res (list (string * jv)) := let* v := item k d in as_dict v.
Definition texts_at (k : string) d : res (list string) := let* v := item k d in let* l := as_list v in mapM as_text l.
(** [d.get(k, default)] *)
Definition text_or (x : string) (k : string) d : res string := match get k d with Some v => as_text v | None => Ok x end.
Definition bool_or (x : bool) (k : string) d : res bool := match get k d with Some v => as_bool v | None => Ok x end.

(** full_classname and get_python_class_from_class_name, utils/helpers.py:56-80: a class
    is found again by the text after the last dot in the module of the name before.  A
    name without dot is read by literal_eval, which refuses it. *)
Definition classname (c : cls) : string := (c_module c ++ "." ++ c_name c)%string.
Fixpoint rsplit (s : string) : option (string * string) :=
  match s with
  | EmptyString => None
  | String a s' =>
    match rsplit s' with
    | Some (m, n) => Some (String a m, n)
    | None => if Ascii.eqb a "." then Some (EmptyString, s') else None
    end
  end.
Definition class_of (s : string) : res cls :=
  match rsplit s with Some (m, n) => Ok (mkCls m n) | None => Err ValueError end.
Definition class_at (k : string) d : res cls := let* s := text_at k d in class_of s.

(** MethodType, AttributeType and the types of views, typings.py:46-56 and 89-99: the
    class they are read with is the one the reader names. *)
Definition write_typed (t : string) (c : cls) (n : string) : jv :=
  JDict [("class_", JText (classname c)); ("name", JText n); ("object_class", JText (classname (in_typings t)))].
Definition typed_of (d : list (string * jv)) : res (cls * string) :=
  let* c := class_at "class_" d in let* n := text_at "name" d in Ok (c, n).
Definition typed_at (k : string) d : res (cls * string) := let* t := dict_at k d in typed_of t.

(** ** Workflows *)

(** Name, label and position of a variable. *)
Record tag := mkTag { t_name : string; t_label : string; t_pos : Z * Z }.

(** DisplaySetting, displays.py:17-29 *)
Record display := mkDisplay { ds_selector : option string; ds_type : string; ds_method : string;
                              ds_arguments : list (string * jv); ds_serialize : bool; ds_load : bool }.

(** Step, workflow/core.py:285-300 *)
Record step := mkStep { st_label : string; st_inputs : list nat; st_group_id : string; st_group_inputs : list nat;
                        st_display : option display; st_doc : string; st_index : option nat; st_id : string }.

(** What Variable.to_dict writes, and a step. *)
Record vdict {J : Type} := mkVd { vd_name : string; vd_label : string; vd_pos : Z * Z; vd_locked : bool; vd_default : option J }.
Arguments vdict : clear implicits.
Arguments mkVd {J}.
Record sdict := mkSd { sd_label : string; sd_inputs : list address; sd_group_id : string; sd_group_inputs : list address;
                       sd_display : option (list (string * jv)); sd_doc : string; sd_index : option nat; sd_id : string }.

Section Saved.
Context {V J : Type}.
Notation variable := (variable V tag).
(** the inputs found in signatures, and strings as values, as in [ScriptModel] *)
Variable params : cls -> string -> list (VariablesModel.variable V string).
Variable text : string -> V.
(** serialize and deserialize, on default values *)
Variable ser : V -> res J.
Variable des : J -> res V.

(** A workflow: its diagram, its variables, its blocks in order, its steps, its detached
    variables, its description, its documentation and its name.  The WorkflowBlock of a
    ForEach has ports of its own, a name and a position. *)
Inductive wf :=
| Wf (d : workflow) (info : nat -> variable) (bs : list part) (steps : list step) (detached : list variable)
     (description doc name : string)
with part :=
| Part (k : kind) (name : string) (pos : Z * Z)
with kind :=
| KConf (c : conf)
| KWorkflow (w : wf)
| KForEach (w : wf) (ins outs : list variable) (name : string) (pos : Z * Z) (iter : nat).

Definition diagram (w : wf) := match w with Wf d _ _ _ _ _ _ _ => d end.
Definition info (w : wf) := match w with Wf _ i _ _ _ _ _ _ => i end.
Definition parts (w : wf) := match w with Wf _ _ b _ _ _ _ _ => b end.
Definition steps (w : wf) := match w with Wf _ _ _ s _ _ _ _ => s end.
Definition detached (w : wf) := match w with Wf _ _ _ _ x _ _ _ => x end.
Definition description (w : wf) := match w with Wf _ _ _ _ _ x _ _ => x end.
Definition doc (w : wf) := match w with Wf _ _ _ _ _ _ x _ => x end.
Definition wname (w : wf) := match w with Wf _ _ _ _ _ _ _ n => n end.

Inductive wdict :=
| WDict (blocks : list bdict) (pipes : list (address * address)) (output : option address)
        (nbvs : list (vdict J)) (steps : list sdict) (description doc name : string)
with bdict :=
| BDict (fields : list (string * jv)) (ins outs : list (vdict J)) (sub : nested)
with nested :=
| NNone
| NWorkflow (w : wdict)          (* "workflow" *)
| NBlock (b : bdict).            (* "workflow_block" *)

(** ** Constructors *)
Definition new_var (n : string) : variable := mkVar None false (mkTag n "" (0, 0)%Z).
Definition fresh (x : VariablesModel.variable V string) : variable :=
  mkVar (v_default x) (v_lock x) (mkTag (v_label x) "" (0, 0)%Z).

(** Variable.copy then a new name, workflow/core.py:139-153 and workflow/blocks.py:389-396 *)
Definition copy_as (n : string) (x : variable) : res variable := copy (mkTag n "" (0, 0)%Z) x.

(** WorkflowBlock, workflow/blocks.py:384-397 *)
Definition wfblock_ports (w : wf) (n : string) : res (list variable * list variable) :=
  let* ins := mapM (fun v => copy_as (n ++ " - " ++ t_name (v_label (info w v)))%string (info w v)) (inputs (diagram w)) in
  let* o := of_option AttributeError (output (diagram w)) in
  let* y := copy_as (t_name (v_label (info w o))) (info w o) in
  Ok (ins, [y]).

(** ForEach, workflow/blocks.py:460-478, given the inputs of its WorkflowBlock *)
Definition foreach_ports (ins : list variable) (iter : nat) : res (list variable * list variable) :=
  let* _ := of_option IndexError (nth_error ins iter) in
  let* l := mapM (fun ix : nat * variable =>
                    if Nat.eqb (fst ix) iter then Ok (new_var ("Iterable input: " ++ t_name (v_label (snd ix)))%string)
                    else copy_as ("Binding: " ++ t_name (v_label (snd ix)))%string (snd ix)) (enumerate ins) in
  Ok (l, [new_var "Foreach output"]).

Definition conf_ports (c : conf) : list variable * list variable :=
  let io := ports params text c in (map fresh (fst io), map fresh (snd io)).

(** _find_name, workflow/core.py:507-516, and the NAME_VARIABLE of lines 170-173: the
    detached variables of a new workflow. *)
Definition name_variable : variable := mkVar None false (mkTag "_result_name_" "Result Name" (0, 0)%Z).
Definition find_name (nbvs detached : list variable) : list variable :=
  if existsb (fun x => String.eqb (t_name (v_label x)) "_result_name_") (nbvs ++ detached) then detached
  else name_variable :: detached.

(** ** Writing *)

(** Variable.to_dict, workflow/core.py:109-117 *)
Definition write_var (x : variable) : res (vdict J) :=
  let* l := is_locked x in
  let* d := match v_default x with Some v => let* j := ser v in Ok (Some j) | None => Ok None end in
  Ok (mkVd (t_name (v_label x)) (t_label (v_label x)) (t_pos (v_label x)) l d).

(** base_dict, core.py:104-108, and the attributes of Block *)
Definition base (cl : string) (n : string) (p : Z * Z) : list (string * jv) :=
  [("object_class", JText (classname (in_blocks cl))); ("name", JText n); ("position", JList [JInt (fst p); JInt (snd p)])].

(** DessiaFilter and the configurations of a MultiObject, by the generic to_dict. *)
Definition write_filter (f : dfilter) : jv :=
  JDict [("object_class", JText "dessia_common.core.DessiaFilter"); ("name", JText (f_name f));
         ("attribute", JText (f_attribute f)); ("comparison_operator", JText (f_operator f)); ("bound", JInt (f_bound f))].
Definition write_view (v : pview) : jv :=
  JDict [("object_class", JText (classname (in_blocks (if pv_parallel v then "ParallelView" else "ScatterView"))));
         ("name", JText (pv_name v)); ("attributes", JList (map JText (pv_attributes v)))].

Definition old_name (v : view) : string :=
  match v with PlotData => "DeprecatedPlotData" | Markdown => "DeprecatedMarkdown" | CadView => "DeprecatedCadView" end.

(** What the to_dict of a block writes (serialization.py:50-64, workflow/core.py:188-191,
    workflow/blocks.py:897-903, 988-994 and 1497-1503); [n_in] is the number of its inputs. *)
Definition write_conf (c : conf) (n_in : nat) (n : string) (p : Z * Z) : list (string * jv) :=
  let num k x := (k, JInt (Z.of_nat x)) in
  match c with
  | CInstantiate k => base "InstantiateModel" n p ++ [("model_class", JText (classname k))]
  | CClassMethod k m => base "ClassMethod" n p ++ [("method_type", write_typed "ClassMethodType" k m)]
  | CModelMethod k m => base "ModelMethod" n p ++ [("method_type", write_typed "MethodType" k m)]
  | CSequence x => base "Sequence" n p ++ [num "number_arguments" x]
  | CConcatenate x => base "Concatenate" n p ++ [num "number_arguments" x]
  | CUnpacker l => base "Unpacker" n p ++ [("indices", JList (map JInt l))]
  | CFlatten => base "Flatten" n p
  | CProduct x => base "Product" n p ++ [num "number_list" x]
  | CFilter fs op => base "Filter" n p ++ [("filters", JList (map write_filter fs)); ("logical_operator", JText op)]
  | CView v k s load =>
      base (view_name v) n p ++ [("load_by_default", JBool load); ("selector", write_typed (selector_name v) k s)]
  | COldView v s load => base (old_name v) n p ++ [("load_by_default", JBool load); ("selector", JText s)]
  | COldMultiPlot l load =>
      base "DeprecatedMultiPlot" n p ++ [("attributes", JList (map JText l)); ("load_by_default", JBool load);
                                         ("selector", JNull); ("serialize", JBool true)]
  | CMultiPlot s l load =>
      base "MultiPlot" n p ++ [("attributes", JList (map JText l)); ("load_by_default", JBool load);
                               ("selector", write_typed "PlotDataType" (mkCls "dessia_common.core" "DessiaObject") s);
                               ("selector_name", JText s)]
  | CMultiObject s vs load =>
      base "MultiObject" n p ++ [("configurations", JList (map write_view vs)); ("load_by_default", JBool load);
                                 ("selector", write_typed "PlotDataType" (mkCls "dessia_common.core" "DessiaObject") s);
                                 ("selector_name", JText s)]
  | CModelAttribute a => base "ModelAttribute" n p ++ [("attribute_name", JText a)]
  | CGetAttribute k a => base "GetModelAttribute" n p ++ [("attribute_type", write_typed "AttributeType" k a)]
  | CSetAttribute k a => base "SetModelAttribute" n p ++ [("attribute_type", write_typed "AttributeType" k a)]
  | CSum x => base "Sum" n p ++ [num "number_elements" x]
  | CSubstraction => base "Substraction" n p
  | CConcatStrings x s => base "ConcatenateStrings" n p ++ [num "number_elements" x; ("separator", JText s)]
  | CExport k m f e t =>
      base "Export" n p ++ [("method_type", write_typed "MethodType" k m); ("filename", JText f); ("extension", JText e);
                            ("text", JBool t)]
  | CArchive _ f =>
      base "Archive" n p ++ [num "number_exports" (n_in - 1); ("filename", JText f); ("extension", JText "zip");
                             ("text", JBool false)]
  end.

(** Step.to_dict, workflow/core.py:315-320, with the addresses of workflow/core.py:761-766;
    DisplaySetting.to_dict, displays.py:58-61 *)
Definition write_display (x : display) : list (string * jv) :=
  [("selector", match ds_selector x with Some s => JText s | None => JNull end); ("type", JText (ds_type x));
   ("method", JText (ds_method x)); ("arguments", JDict (ds_arguments x)); ("serialize_data", JBool (ds_serialize x));
   ("load_by_default", JBool (ds_load x))].
Definition write_step (d : workflow) (s : step) : res sdict :=
  let* ins := mapM (variable_indices d) (st_inputs s) in
  let* groups := mapM (variable_indices d) (st_group_inputs s) in
  Ok (mkSd (st_label s) ins (st_group_id s) groups (option_map write_display (st_display s)) (st_doc s) (st_index s) (st_id s)).

(** Workflow.to_dict, workflow/core.py:757-775; WorkflowBlock and ForEach by the generic
    to_dict. *)
Fixpoint write_wf (w : wf) : res wdict :=
  match w with
  | Wf d info ps ss det descr doc nm =>
    let* bs := map2M (fun p b => write_part p (map info (b_in b)) (map info (b_out b))) ps (blocks d) in
    let* pp := serialized_pipes d in
    let* o := serialized_output d in
    let* nb := mapM write_var (map info (nonblock_variables d) ++ det) in
    let* s := mapM (write_step d) ss in
    Ok (WDict bs pp o nb s descr doc nm)
  end
with write_part (p : part) (ins outs : list variable) {struct p} : res bdict :=
  match p with
  | Part k n pos =>
    let* i := mapM write_var ins in
    let* o := mapM write_var outs in
    match k with
    | KConf c => Ok (BDict (write_conf c (length ins) n pos) i o NNone)
    | KWorkflow w => let* x := write_wf w in Ok (BDict (base "WorkflowBlock" n pos) i o (NWorkflow x))
    | KForEach w bi bo bn bp iter =>
        let* x := write_wf w in
        let* xi := mapM write_var bi in
        let* xo := mapM write_var bo in
        Ok (BDict (base "ForEach" n pos ++ [("iter_input_index", JInt (Z.of_nat iter))]) i o
              (NBlock (BDict (base "WorkflowBlock" bn bp) xi xo (NWorkflow x))))
    end
  end.

(** ** Reading *)
Definition read_default (d : option J) : res (option V) :=
  match d with Some j => let* v := des j in Ok (Some v) | None => Ok None end.

(** update_from_config, workflow/core.py:119-126: the name and the position stay *)
Definition update (x : variable) (c : vdict J) : res variable :=
  let* d := read_default (vd_default c) in
  let r := update_from_config d (mkTag (t_name (v_label x)) (vd_label c) (t_pos (v_label x))) (vd_locked c) x in
  match snd r with None => Ok (fst r) | Some e => Err e end.
(** deserialize_variables, workflow/core.py:241-252: zip stops at the shortest *)
Fixpoint update_all (xs : list variable) (cs : list (vdict J)) : res (list variable) :=
  match xs, cs with
  | x :: xs', c :: cs' => let* y := update x c in let* r := update_all xs' cs' in Ok (y :: r)
  | _, _ => Ok xs
  end.
Definition deserialize_variables (io : list variable * list variable) (ins outs : list (vdict J))
  : res (list variable * list variable) :=
  let* i := update_all (fst io) ins in
  let* o := update_all (snd io) outs in
  Ok (i, o).

(** A non block variable, by the generic dict_to_object and the constructor
    (serialization.py:290-351, workflow/core.py:51-60): "locked" is not an argument. *)
Definition read_nbv (c : vdict J) : res variable :=
  let* d := read_default (vd_default c) in
  Ok (mkVar d false (mkTag (vd_name c) (vd_label c) (vd_pos c))).

Definition read_filter (v : jv) : res dfilter :=
  let* d := as_dict v in
  let* a := text_at "attribute" d in
  let* op := text_at "comparison_operator" d in
  let* b := let* x := item "bound" d in as_int x in
  let* n := text_or "" "name" d in
  Ok (mkFilter a op b n).
Definition read_view (v : jv) : res pview :=
  let* d := as_dict v in
  let* c := class_at "object_class" d in
  let* l := texts_at "attributes" d in
  let* n := text_or "" "name" d in
  if cls_eqb c (in_blocks "ParallelView") then Ok (mkView true l n)
  else if cls_eqb c (in_blocks "ScatterView") then Ok (mkView false l n)
  else Err TypeError.

(** The dict_to_object of the blocks that nest nothing, workflow/blocks.py:105-111,
    171-181, 247-253, 314-319, 354-359, 547-552, 585-590, 622-627, 662-669, 905-924,
    996-1003, 1041-1053, 1091-1103, 1143-1155, 1181-1186, 1226-1232, 1273-1279, 1317-1322,
    1354-1359, 1390-1396, 1441-1448 and 1505-1512, and the generic one for the deprecated
    displays, which does not read the configurations of the ports: [false]. *)
Definition read_conf (f : list (string * jv)) : res ((conf * string) * bool) :=
  let* c := class_at "object_class" f in
  let* n := text_at "name" f in
  let is x := cls_eqb c (in_blocks x) in
  let conf x : res ((conf * string) * bool) := Ok ((x, n), true) in
  let old x : res ((ScriptModel.conf * string) * bool) := Ok ((x, n), false) in
  let display v default :=
    match get "selector" f with
    | Some (JText s) => let* b := bool_or false "load_by_default" f in old (COldView v s b)
    | None => let* b := bool_or false "load_by_default" f in old (COldView v default b)
    | Some _ => let* ks := typed_at "selector" f in
                let* b := bool_at "load_by_default" f in conf (CView v (fst ks) (snd ks) b)
    end in
  let deprecated v default :=
    let* s := text_or default "selector" f in
    let* b := bool_or false "load_by_default" f in old (COldView v s b) in
  if is "InstantiateModel" then let* k := class_at "model_class" f in conf (CInstantiate k)
  else if is "ClassMethod" then let* km := typed_at "method_type" f in conf (CClassMethod (fst km) (snd km))
  else if is "ModelMethod" then
    let* km := typed_at "method_type" f in
    Ok ((CModelMethod (fst km) (snd km), if String.eqb n "" then ("Model method: " ++ snd km)%string else n), true)
  else if is "Sequence" then let* x := nat_at "number_arguments" f in conf (CSequence x)
  else if is "Concatenate" then let* x := nat_at "number_arguments" f in conf (CConcatenate x)
  else if is "Unpacker" then
    let* v := item "indices" f in let* l := as_list v in let* zs := mapM as_int l in conf (CUnpacker zs)
  else if is "Flatten" then conf CFlatten
  else if is "Product" then let* x := nat_at "number_list" f in conf (CProduct x)
  else if is "Filter" then
    let* v := item "filters" f in let* l := as_list v in let* fs := mapM read_filter l in
    let* op := text_at "logical_operator" f in conf (CFilter fs op)
  else if is "PlotData" then display PlotData "plot_data"
  else if is "Markdown" then display Markdown "markdown"
  else if is "CadView" then display CadView "cad"
  else if is "DeprecatedPlotData" then deprecated PlotData "plot_data"
  else if is "DeprecatedMarkdown" then deprecated Markdown "markdown"
  else if is "DeprecatedCadView" then deprecated CadView "cad"
  else if is "DeprecatedMultiPlot" then
    let* l := texts_at "attributes" f in let* b := bool_or true "load_by_default" f in old (COldMultiPlot l b)
  else if is "MultiPlot" then
    let* l := texts_at "attributes" f in
    match get "selector_name" f, get "selector" f with
    | None, None => let* b := bool_or false "load_by_default" f in old (COldMultiPlot l b)
    | Some s, _ => let* s := as_text s in let* b := bool_at "load_by_default" f in conf (CMultiPlot s l b)
    | None, Some (JText s) => let* b := bool_at "load_by_default" f in conf (CMultiPlot s l b)
    | None, Some v => let* d := as_dict v in let* s := text_at "name" d in
                      let* b := bool_at "load_by_default" f in conf (CMultiPlot s l b)
    end
  else if is "MultiObject" then
    let* v := item "configurations" f in let* l := as_list v in let* vs := mapM read_view l in
    let* s := text_at "selector_name" f in let* b := bool_at "load_by_default" f in conf (CMultiObject s vs b)
  else if is "ModelAttribute" then let* a := text_at "attribute_name" f in conf (CModelAttribute a)
  else if is "GetModelAttribute" then let* ka := typed_at "attribute_type" f in conf (CGetAttribute (fst ka) (snd ka))
  else if is "SetModelAttribute" then let* ka := typed_at "attribute_type" f in conf (CSetAttribute (fst ka) (snd ka))
  else if is "Sum" then let* x := nat_at "number_elements" f in conf (CSum x)
  else if is "Substraction" then conf CSubstraction
  else if is "ConcatenateStrings" then
    let* x := nat_at "number_elements" f in let* s := text_at "separator" f in conf (CConcatStrings x s)
  else if is "Export" then
    let* km := typed_at "method_type" f in
    let* t := bool_at "text" f in
    let* e := text_at "extension" f in
    let* fn := text_at "filename" f in
    conf (CExport (fst km) (snd km) (if String.eqb fn "" then "export" else fn) e t)
  else if is "Archive" then
    let* x := nat_at "number_exports" f in let* fn := text_at "filename" f in conf (CArchive x fn)
  else Err TypeError.

Definition pos_at (k : string) f : res (Z * Z) := let* v := item k f in as_pos v.

(** Step.dict_to_object and add_display_setting, workflow/core.py:322-337;
    DisplaySetting.dict_to_object, displays.py:63-72 *)
Definition read_display (f : list (string * jv)) : res display :=
  let* s := let* v := item "selector" f in match v with JNull => Ok None | _ => let* s := as_text v in Ok (Some s) end in
  let* t := text_at "type" f in
  let* m := text_at "method" f in
  let* a := dict_at "arguments" f in
  let* x := bool_at "serialize_data" f in
  let* b := bool_at "load_by_default" f in
  Ok (mkDisplay s t m a x b).
Definition read_step (d : workflow) (s : sdict) : res step :=
  let* ins := mapM (variable_from_index d) (sd_inputs s) in
  let* groups := mapM (variable_from_index d) (sd_group_inputs s) in
  match sd_display s with
  | None | Some [] => Ok (mkStep (sd_label s) ins (sd_group_id s) groups None (sd_doc s) None (sd_id s))
  | Some f => let* x := read_display f in
              Ok (mkStep (sd_label s) ins (sd_group_id s) groups (Some x) (sd_doc s) (sd_index s) (sd_id s))
  end.

(** Variables are numbered in the order they are made: the ports of the blocks, then the
    non block variables. *)
Fixpoint number (n : nat) (l : list (list variable * list variable)) : list block :=
  match l with
  | [] => []
  | (i, o) :: l' => mkBlock (seq n (length i)) (seq (n + length i) (length o)) :: number (n + length i + length o) l'
  end.
Definition all_ports (l : list (list variable * list variable)) : list variable := flat_map (fun io => fst io ++ snd io) l.

(** Workflow.dict_to_object, initialize_workflow and deserialize_pipes,
    workflow/core.py:777-809 and 2302-2353; the detached variables of the first workflow
    are not given to the second.  WorkflowBlock and ForEach, workflow/blocks.py:408-414
    and 490-497. *)
Definition assemble (l : list (part * (list variable * list variable))) (vs : list variable)
    (ps : list (address * address)) (o : option address) (ss : list sdict) (descr doc nm : string) : res wf :=
  let io := map snd l in
  let bs := number 0 io in
  let* ps' := deserialize_pipes bs (seq (length (all_ports io)) (length vs)) ps in
  let* o' := deserialize_output bs o in
  let d := mkWf bs ps' o' in
  let info v := nth v (all_ports io ++ vs) (new_var "") in
  let* ss' := mapM (read_step d) ss in
  Ok (Wf d info (map fst l) ss' (find_name (map info (nonblock_variables d)) []) descr doc nm).

Fixpoint read_wf (w : wdict) : res wf :=
  match w with
  | WDict bs ps o nb ss descr doc nm =>
    let* l := map1M read_block bs in
    let* vs := mapM read_nbv nb in
    assemble l vs ps o ss descr doc nm
  end
with read_block (b : bdict) : res (part * (list variable * list variable)) :=
  match b with
  | BDict f ins outs sub =>
    match sub with
    | NNone =>
        let* cn := read_conf f in
        let* pos := pos_at "position" f in
        let c := fst (fst cn) in
        let* io := if snd cn then deserialize_variables (conf_ports c) ins outs else Ok (conf_ports c) in
        Ok (Part (KConf c) (snd (fst cn)) pos, io)
    | NWorkflow x =>
        let* c := class_at "object_class" f in
        if cls_eqb c (in_blocks "WorkflowBlock") then
          let* w := read_wf x in
          let* n := text_at "name" f in
          let* pos := pos_at "position" f in
          let* io := wfblock_ports w n in
          let* io' := deserialize_variables io ins outs in
          Ok (Part (KWorkflow w) n pos, io')
        else Err TypeError
    | NBlock (BDict bf bi bo (NWorkflow x)) =>
        let* c := class_at "object_class" f in
        if cls_eqb c (in_blocks "ForEach") then
          let* w := read_wf x in
          let* bn := text_at "name" bf in
          let* bp := pos_at "position" bf in
          let* bio := wfblock_ports w bn in
          let* bio' := deserialize_variables bio bi bo in
          let* i := nat_at "iter_input_index" f in
          let* n := text_at "name" f in
          let* pos := pos_at "position" f in
          let* io := foreach_ports (fst bio') i in
          let* io' := deserialize_variables io ins outs in
          Ok (Part (KForEach w (fst bio') (snd bio') bn bp i) n pos, io')
        else Err TypeError
    | NBlock _ => Err KeyError
    end
  end.
End Saved.
Arguments wf : clear implicits.
Arguments part : clear implicits.
Arguments kind : clear implicits.
Arguments wdict : clear implicits.
Arguments bdict : clear implicits.
Arguments nested : clear implicits.

(** What a workflow needs to be written as a script, and what comes back. *)
From Coq Require Import ZArith Bool String Ascii Arith List.
From Verif Require Import Base ExecModel ExecSpec WiringSpec VariablesModel ScriptModel.
Import ListNotations.
Open Scope string_scope.
Open Scope list_scope.

(** [R] holds of the elements of two lists of the same length, one by one. *)
Definition all2 {A B} (R : A -> B -> Prop) : list A -> list B -> Prop :=
  fix go l m :=
    match l, m with
    | [], [] => True
    | a :: l', b :: m' => R a b /\ go l' m'
    | _, _ => False
    end.

(** The lines "from module import names" import the class. *)
Definition imported (d : list (string * list string)) (c : cls) : Prop :=
  exists l, In (c_module c, l) d /\ In (c_name c) l.

(** A name stands for one class. *)
Definition unambiguous (l : list cls) : Prop := forall a b, In a l -> In b l -> c_name a = c_name b -> a = b.

Section Spec.
Context {V : Type}.
Variable params : cls -> string -> list (variable V string).
Variable text : string -> V.
Notation wf := (@wf V).
Notation part := (@part V).
Notation ports := (ports params text).
Notation constructed := (constructed params text).

(** ** Classes a script names *)
Definition conf_uses (c : conf) : list cls :=
  match c with
  | CInstantiate k => [in_blocks "InstantiateModel"; k]
  | CClassMethod k _ => [in_blocks "ClassMethod"; in_typings "ClassMethodType"; k]
  | CModelMethod k _ => [in_blocks "ModelMethod"; in_typings "MethodType"; k]
  | CSequence _ => [in_blocks "Sequence"]
  | CConcatenate _ => [in_blocks "Concatenate"]
  | CUnpacker _ => [in_blocks "Unpacker"]
  | CFlatten => [in_blocks "Flatten"]
  | CProduct _ => [in_blocks "Product"]
  | CFilter _ _ => [in_blocks "Filter"; mkCls "dessia_common.core" "DessiaFilter"]
  | CView PlotData k _ _ => [in_blocks "PlotData"; in_typings "PlotDataType"; k]
  | CView Markdown k _ _ => [in_blocks "Markdown"; in_typings "MarkdownType"; k]
  | CView CadView k _ _ => [in_blocks "CadView"; in_typings "CadViewType"; k]
  | COldView PlotData _ _ => [in_blocks "DeprecatedPlotData"]
  | COldView Markdown _ _ => [in_blocks "DeprecatedMarkdown"]
  | COldView CadView _ _ => [in_blocks "DeprecatedCadView"]
  | COldMultiPlot _ _ => [in_blocks "DeprecatedMultiPlot"]
  | CMultiPlot _ _ _ => [in_blocks "MultiPlot"]
  | CMultiObject _ vs _ =>
      in_blocks "MultiObject" :: map (fun v => in_blocks (if pv_parallel v then "ParallelView" else "ScatterView")) vs
  | CModelAttribute _ => [in_blocks "ModelAttribute"]
  | CGetAttribute k _ => [in_blocks "GetModelAttribute"; in_typings "AttributeType"; k]
  | CSetAttribute k _ => [in_blocks "SetModelAttribute"; in_typings "AttributeType"; k]
  | CSum _ => [in_blocks "Sum"]
  | CSubstraction => [in_blocks "Substraction"]
  | CConcatStrings _ _ => [in_blocks "ConcatenateStrings"]
  | CExport k _ _ _ _ => [in_blocks "Export"; in_typings "MethodType"; k]
  | CArchive _ _ => [in_blocks "Archive"]
  end.

Fixpoint uses (w : wf) : list cls :=
  match w with
  | Wf d _ ps _ _ =>
      in_core "Workflow" :: flat_map part_uses ps
        ++ (match pipes d with [] => [] | _ => [in_core "Pipe"] end)
        ++ (match nonblock_variables d with [] => [] | _ => [in_core "Variable"] end)
  end
with part_uses (p : part) : list cls :=
  match p with
  | Part k _ _ =>
    match k with
    | KConf c => conf_uses c
    | KWorkflow w => in_blocks "WorkflowBlock" :: uses w
    | KForEach w _ _ _ => in_blocks "ForEach" :: in_blocks "WorkflowBlock" :: uses w
    end
  end.

(** No SetModelAttribute, at any level: its script imports neither its class nor
    AttributeType. *)
Fixpoint set_free (w : wf) : Prop :=
  match w with
  | Wf _ _ ps _ _ => (fix go l := match l with [] => True | p :: l' => part_set_free p /\ go l' end) ps
  end
with part_set_free (p : part) : Prop :=
  match p with
  | Part k _ _ =>
    match k with
    | KConf (CSetAttribute _ _) => False
    | KConf _ => True
    | KWorkflow w => set_free w
    | KForEach w _ _ _ => set_free w
    end
  end.

(** ** Workflows that can be written *)

(** The text holds neither a backslash, nor the quote, nor, unless [multiline], a new line. *)
Definition quotable (q : ascii) (multiline : bool) (s : string) : Prop :=
  forall c, In c (list_ascii_of_string s) -> c <> q /\ c <> "\"%char /\ (multiline = false -> c <> "010"%char).
Notation in_single := (quotable "'" false).
Notation in_double := (quotable """" false).

(** Every block class but Filter and the deprecated displays; texts between single quotes
    hold none; a ParallelView has attributes; a ScatterView does not have one only, unless
    it is one character long; the name of the file of an Export and the name of a
    ModelMethod are not empty. *)
Definition writable (c : conf) (name : string) : Prop :=
  match c with
  | CFilter _ _ | COldView _ _ _ | COldMultiPlot _ _ => False
  | CClassMethod _ m => in_single m /\ in_double name
  | CModelMethod _ m => in_single m /\ in_double name /\ name <> ""
  | CView _ _ s _ | CMultiPlot s _ _ => in_single s /\ in_double name
  | CMultiObject s vs _ =>
      in_single s /\ in_double name
      /\ forall v, In v vs -> in_single (pv_name v) /\ (forall a, In a (pv_attributes v) -> in_single a)
           /\ (pv_parallel v = true -> pv_attributes v <> [])
           /\ (pv_parallel v = false -> forall a, pv_attributes v = [a] -> String.length a = 1)
  | CModelAttribute a => in_single a /\ in_double name
  | CGetAttribute _ a | CSetAttribute _ a => in_double a /\ in_double name
  | CConcatStrings _ s => in_single s /\ in_single name
  | CExport _ m f e _ => in_single m /\ in_single f /\ in_single e /\ in_double name /\ f <> ""
  | CArchive _ f => in_single f /\ in_double name
  | _ => in_double name
  end.

(** A workflow with an output, well formed at every level, whose blocks have the ports
    of their constructors, whose locked inputs have default values and whose texts can be
    quoted. *)
Fixpoint sound (w : wf) : Prop :=
  match w with
  | Wf d info ps doc name =>
      well_formed d /\ output d <> None /\ all2 fits ps (blocks d)
      /\ (forall b v, In b (blocks d) -> In v (b_in b) -> v_lock (info v) = true -> v_default (info v) <> None)
      /\ quotable """" true doc /\ in_double name
      /\ (forall v, In v (nonblock_variables d) -> in_single (v_label (info v)))
  end
with fits (p : part) (b : block) : Prop :=
  match p with
  | Part k name _ =>
    match k with
    | KConf c => writable c name /\ length (b_in b) = length (fst (ports c)) /\ length (b_out b) = length (snd (ports c))
    | KWorkflow w => in_double name /\ sound w /\ length (b_in b) = length (inputs (diagram w)) /\ length (b_out b) = 1
    | KForEach w bname _ i => in_double name /\ in_double bname /\ sound w
        /\ length (b_in b) = length (inputs (diagram w)) /\ length (b_out b) = 1 /\ i < length (inputs (diagram w))
    end
  end.

(** Variables made out of signatures are not locked. *)
Definition unlocked_params : Prop := forall c m x, In x (params c m) -> v_lock x = false.

(** The [i]-th input of a block built anew has a default value: it has one in the
    signature, or, for a WorkflowBlock, the input it stands for is an input of a block of
    the inner workflow that has one; the iterated input of a ForEach has none. *)
Inductive keeps_default : part -> nat -> Prop :=
| kd_conf c n p i x : nth_error (fst (ports c)) i = Some x -> v_default x <> None -> keeps_default (Part (KConf c) n p) i
| kd_workflow w n p i : inner_default w i -> keeps_default (Part (KWorkflow w) n p) i
| kd_foreach w bn bp iter n p i : inner_default w i -> i <> iter -> keeps_default (Part (KForEach w bn bp iter) n p) i
with inner_default : wf -> nat -> Prop :=
| id_port w i v j b k q : nth_error (inputs (diagram w)) i = Some v -> nth_error (blocks (diagram w)) j = Some b ->
    nth_error (b_in b) k = Some v -> nth_error (parts w) j = Some q -> keeps_default q k -> inner_default w i.

(** Every locked input of a block, at every level, has a default value when the block is
    built anew. *)
Fixpoint locks_kept (w : wf) : Prop :=
  match w with
  | Wf d info ps _ _ =>
      all2 (fun p b => (forall k v, nth_error (b_in b) k = Some v -> v_lock (info v) = true -> keeps_default p k)
                       /\ part_locks p) ps (blocks d)
  end
with part_locks (p : part) : Prop :=
  match p with
  | Part k _ _ => match k with KConf _ => True | KWorkflow w => locks_kept w | KForEach w _ _ _ => locks_kept w end
  end.

(** ** What comes back *)

(** The last documentation in the script of [w]: the one of the last workflow written. *)
Fixpoint last_doc (w : wf) : string :=
  match w with
  | Wf _ _ ps doc _ => fold_left (fun acc p => match part_doc p with Some x => x | None => acc end) ps doc
  end
with part_doc (p : part) : option string :=
  match p with
  | Part k _ _ => match k with KConf _ => None | KWorkflow w => Some (last_doc w) | KForEach w _ _ _ => Some (last_doc w) end
  end.

(** [w'] is [w] up to the identity of variables, the documentation, default values and the
    position of ConcatenateStrings: same blocks in order, at every level, with the same
    ports, pipes and output.  Inputs of blocks have the names and default values given by
    the constructors, and are locked if they were or if the constructor locks them; non
    block variables keep their names only. *)
Inductive comes_back : wf -> wf -> Prop :=
| cb_wf d info ps doc name h info' ps' :
    separates h d ->
    Forall2 part_back ps ps' ->
    (forall v, In v (nonblock_variables d) -> info' (h v) = mkVar None false (v_label (info v))) ->
    (forall j b p', nth_error (blocks d) j = Some b -> nth_error ps' j = Some p' ->
       exists ins outs, constructed p' = Ok (ins, outs)
         /\ (forall k v, nth_error (b_in b) k = Some v -> exists x, nth_error ins k = Some x
               /\ info' (h v) = mkVar (v_default x) (v_lock (info v) || v_lock x) (v_label x))
         /\ (forall k v, nth_error (b_out b) k = Some v -> nth_error outs k = Some (info' (h v)))) ->
    comes_back (Wf d info ps doc name) (Wf (relabel h d) info' ps' (last_doc (Wf d info ps doc name)) name)
with part_back : part -> part -> Prop :=
| pb_conf c n p : part_back (Part (KConf c) n p)
    (Part (KConf c) n (match c with CConcatStrings _ _ => (0, 0)%Z | _ => p end))
| pb_workflow w w' n p : comes_back w w' -> part_back (Part (KWorkflow w) n p) (Part (KWorkflow w') n p)
| pb_foreach w w' bn bp i n p : comes_back w w' ->
    part_back (Part (KForEach w bn bp i) n p) (Part (KForEach w' bn bp i) n p).
End Spec.

(** What equality of workflows should mean *)
From Coq Require Import ZArith Bool String List.
From Verif Require Import Base ExecModel ExecSpec EqualityModel.
Import ListNotations.

(** Two variables a user cannot tell apart, but for their default value *)
Definition same_variable (v v' : variable_info) : Prop :=
  v_name v = v_name v' /\ v_type v = v_type v' /\ v_locked v = v_locked v'.

(** Two workflows of the same shape: as many blocks, pipes, and ports block by block *)
Definition same_shape (d d' : workflow) : Prop :=
  Forall2 (fun b b' => List.length (b_in b) = List.length (b_in b') /\ List.length (b_out b) = List.length (b_out b'))
    (blocks d) (blocks d')
  /\ List.length (pipes d) = List.length (pipes d').

(** The configurations that equality tells apart: everything but the class an
    InstantiateModel builds and a SetModelAttribute writes to, the operator of a Filter,
    the method of an Export and the configuration of the remaining blocks.  [equal] is
    the equality of inner workflows. *)
Inductive same_kind (equal : wf -> wf -> Prop) : kind -> kind -> Prop :=
| same_instantiate cls cls' meta : same_kind equal (KInstantiate cls meta) (KInstantiate cls' meta)
| same_class_method cls m : same_kind equal (KClassMethod cls m) (KClassMethod cls m)
| same_model_method cls m : same_kind equal (KModelMethod cls m) (KModelMethod cls m)
| same_export cls cls' m m' : same_kind equal (KExport cls m) (KExport cls' m')
| same_sequence n : same_kind equal (KSequence n) (KSequence n)
| same_concatenate n : same_kind equal (KConcatenate n) (KConcatenate n)
| same_product n : same_kind equal (KProduct n) (KProduct n)
| same_sum n : same_kind equal (KSum n) (KSum n)
| same_strings n s : same_kind equal (KConcatStrings n s) (KConcatStrings n s)
| same_unpacker l : same_kind equal (KUnpacker l) (KUnpacker l)
| same_flatten : same_kind equal KFlatten KFlatten
| same_filter l o o' : same_kind equal (KFilter l o) (KFilter l o')
| same_multiplot b l : same_kind equal (KMultiPlot b l) (KMultiPlot b l)
| same_multiobject l : same_kind equal (KMultiObject l) (KMultiObject l)
| same_attribute a : same_kind equal (KModelAttribute a) (KModelAttribute a)
| same_get cls a : same_kind equal (KGetAttribute cls a) (KGetAttribute cls a)
| same_set cls cls' a : same_kind equal (KSetAttribute cls a) (KSetAttribute cls' a)
| same_plain c x x' : same_kind equal (KPlain c x) (KPlain c x')
| same_workflow w w' : equal w w' -> same_kind equal (KWorkflow w) (KWorkflow w')
| same_for_each w w' ins ins' i : equal w w' -> all_equivalent ins ins' = true ->
    same_kind equal (KForEach w ins i) (KForEach w' ins' i).

(** The workflow inside a block *)
Inductive inner : kind -> wf -> Prop :=
| inner_workflow_ w : inner (KWorkflow w) w
| inner_for_each w ins i : inner (KForEach w ins i) w.

(** Ordinary workflows, at any depth: the diagram is well formed and each block has one
    kind *)
Inductive regular : wf -> Prop :=
| regular_intro w : well_formed (diagram w) -> List.length (kinds w) = List.length (blocks (diagram w)) ->
    (forall k w', In k (kinds w) -> inner k w' -> regular w') -> regular w.

(** Every step, at any depth, displays a variable. *)
Inductive indexed : wf -> Prop :=
| indexed_intro w : (forall s, In s (steps w) -> st_index s <> None) ->
    (forall k w', In k (kinds w) -> inner k w' -> indexed w') -> indexed w.

(** Blocks that check the class of another block before they read its attributes *)
Inductive careful : wf -> Prop :=
| careful_intro w : (forall k, In k (kinds w) -> careful_kind k) -> careful w
with careful_kind : kind -> Prop :=
| careful_sequence n : careful_kind (KSequence n)
| careful_concatenate n : careful_kind (KConcatenate n)
| careful_product n : careful_kind (KProduct n)
| careful_sum n : careful_kind (KSum n)
| careful_unpacker l : careful_kind (KUnpacker l)
| careful_flatten : careful_kind KFlatten
| careful_filter l o : careful_kind (KFilter l o)
| careful_attribute a : careful_kind (KModelAttribute a)
| careful_set c a : careful_kind (KSetAttribute c a)
| careful_export c m : careful_kind (KExport c m)
| careful_plain c x : careful_kind (KPlain c x)
| careful_workflow w : careful w -> careful_kind (KWorkflow w).

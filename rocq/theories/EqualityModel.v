(** Model of the equality and hash of workflows and of the equivalence of blocks
    (dessia_common/workflow/core.py:475-529 and dessia_common/workflow/blocks.py).

    The diagram is that of [ExecModel]: variables are numbers, compared by identity;
    [info] gives what equivalence reads of a variable.  Hashes of strings, addresses and
    displays are external; [int(sum % 1e6)] is the remainder of integers (exact as long
    as the sum is below 2^53). *)
From Coq Require Import ZArith Bool String List.
From Verif Require Import Base ExecModel.
Import ListNotations.
Open Scope string_scope.
Open Scope list_scope.
Open Scope Z_scope.

(** Variable, workflow/core.py:46-60: [v_type] stands for an annotation, compared with
    [==]; [v_default] is the default value, which equivalence does not read. *)
Record variable_info := { v_name : string; v_type : nat; v_locked : bool; v_default : option Z }.

(** Step, workflow/core.py:282-300 *)
Record step := {
  st_label : string; st_inputs : list variable_info; st_group : list variable_info;
  st_display : option nat; st_doc : string; st_index : option Z }.

(** DessiaFilter, core.py:851-855 *)
Record filter_ := { f_attribute : string; f_comparison : string; f_bound : Z }.

(** Blocks that do not redefine [equivalent] nor [equivalent_hash] *)
Inductive plain_class :=
| Substraction | Archive | CadView | DeprecatedCadView | Markdown | DeprecatedMarkdown | PlotData | DeprecatedPlotData.

(** A workflow: its diagram, its variables, one [kind] per block, its steps.  Block
    classes of workflow/blocks.py with their configuration; a class is given by its name
    and, in an InstantiateModel, by the name of its metaclass.  A WorkflowBlock inside a
    ForEach comes with its own inputs. *)
Inductive wf :=
| Wf (d : workflow) (info : nat -> variable_info) (kinds : list kind) (steps : list step)
with kind :=
| KInstantiate (cls meta : string)
| KClassMethod (cls method : string)
| KModelMethod (cls method : string)
| KExport (cls method : string)
| KSequence (number_arguments : nat)
| KConcatenate (number_arguments : nat)
| KProduct (number_list : nat)
| KSum (number_elements : nat)
| KConcatStrings (number_elements : nat) (separator : string)
| KUnpacker (indices : list Z)
| KFlatten
| KFilter (filters : list filter_) (logical_operator : string)
| KMultiPlot (deprecated : bool) (attributes : list string)
| KMultiObject (configurations : list nat)
| KModelAttribute (attribute_name : string)
| KGetAttribute (cls attribute : string)
| KSetAttribute (cls attribute : string)
| KPlain (c : plain_class) (config : nat)
| KWorkflow (w : wf)
| KForEach (w : wf) (block_inputs : list variable_info) (iter_input_index : Z).

Definition diagram (w : wf) := match w with Wf d _ _ _ => d end.
Definition info (w : wf) := match w with Wf _ i _ _ => i end.
Definition kinds (w : wf) := match w with Wf _ _ k _ => k end.
Definition steps (w : wf) := match w with Wf _ _ _ s => s end.

(** [block.__class__.__name__] *)
Definition class_name (k : kind) : string :=
  match k with
  | KInstantiate _ _ => "InstantiateModel"
  | KClassMethod _ _ => "ClassMethod"
  | KModelMethod _ _ => "ModelMethod"
  | KExport _ _ => "Export"
  | KSequence _ => "Sequence"
  | KConcatenate _ => "Concatenate"
  | KProduct _ => "Product"
  | KSum _ => "Sum"
  | KConcatStrings _ _ => "ConcatenateStrings"
  | KUnpacker _ => "Unpacker"
  | KFlatten => "Flatten"
  | KFilter _ _ => "Filter"
  | KMultiPlot true _ => "DeprecatedMultiPlot"
  | KMultiPlot false _ => "MultiPlot"
  | KMultiObject _ => "MultiObject"
  | KModelAttribute _ => "ModelAttribute"
  | KGetAttribute _ _ => "GetModelAttribute"
  | KSetAttribute _ _ => "SetModelAttribute"
  | KPlain Substraction _ => "Substraction"
  | KPlain Archive _ => "Archive"
  | KPlain CadView _ => "CadView"
  | KPlain DeprecatedCadView _ => "DeprecatedCadView"
  | KPlain Markdown _ => "Markdown"
  | KPlain DeprecatedMarkdown _ => "DeprecatedMarkdown"
  | KPlain PlotData _ => "PlotData"
  | KPlain DeprecatedPlotData _ => "DeprecatedPlotData"
  | KWorkflow _ => "WorkflowBlock"
  | KForEach _ _ _ => "ForEach"
  end.

(** Attributes of another block, read without knowing its class *)
Definition model_metaclass (k : kind) : res string :=
  match k with KInstantiate _ m => Ok m | _ => Err AttributeError end.
Definition method_type (k : kind) : res (string * string) :=
  match k with
  | KClassMethod c m | KModelMethod c m | KExport c m => Ok (c, m)
  | _ => Err AttributeError
  end.
Definition number_arguments (k : kind) : res nat :=
  match k with KSequence n | KConcatenate n => Ok n | _ => Err AttributeError end.
Definition number_list (k : kind) : res nat :=
  match k with KProduct n => Ok n | _ => Err AttributeError end.
Definition number_elements (k : kind) : res nat :=
  match k with KSum n => Ok n | KConcatStrings n _ => Ok n | _ => Err AttributeError end.
Definition separator (k : kind) : res string :=
  match k with KConcatStrings _ s => Ok s | _ => Err AttributeError end.
Definition indices (k : kind) : res (list Z) :=
  match k with KUnpacker l => Ok l | _ => Err AttributeError end.
Definition filters (k : kind) : res (list filter_) :=
  match k with KFilter l _ => Ok l | _ => Err AttributeError end.
Definition attributes (k : kind) : res (list string) :=
  match k with KMultiPlot _ l => Ok l | _ => Err AttributeError end.
Definition configurations (k : kind) : res (list nat) :=
  match k with KMultiObject l => Ok l | _ => Err AttributeError end.
Definition attribute_name (k : kind) : res string :=
  match k with KModelAttribute s => Ok s | _ => Err AttributeError end.
Definition attribute_type (k : kind) : res (string * string) :=
  match k with KGetAttribute c a | KSetAttribute c a => Ok (c, a) | _ => Err AttributeError end.
Definition for_each (k : kind) : res (wf * list variable_info * Z) :=
  match k with KForEach w ins i => Ok (w, ins, i) | _ => Err AttributeError end.
Definition inner_workflow (k : kind) : res wf :=
  match k with KWorkflow w => Ok w | _ => Err AttributeError end.

(** [l == l'] on lists *)
Fixpoint list_eqb {A} (eqb : A -> A -> bool) (l l' : list A) : bool :=
  match l, l' with
  | [], [] => true
  | x :: l, x' :: l' => eqb x x' && list_eqb eqb l l'
  | _, _ => false
  end.

(** DessiaFilter.__eq__, core.py:874-878 *)
Definition filter_eqb (f g : filter_) : bool :=
  String.eqb (f_attribute f) (f_attribute g) && String.eqb (f_comparison f) (f_comparison g)
  && Z.eqb (f_bound f) (f_bound g).

(** Variable.equivalent, workflow/core.py:103-107 *)
Definition variable_equivalent (v v' : variable_info) : bool :=
  String.eqb (v_name v) (v_name v') && Nat.eqb (v_type v) (v_type v') && Bool.eqb (v_locked v) (v_locked v').

(** the loop over [zip(self.inputs, other.inputs)], which stops at the shorter list *)
Definition all_equivalent (ins ins' : list variable_info) : bool :=
  forallb (fun vv => variable_equivalent (fst vv) (snd vv)) (combine ins ins').

(** Block.equivalent, workflow/core.py:201-210 *)
Definition base_equivalent (k : kind) (ins : list variable_info) (k' : kind) (ins' : list variable_info) : bool :=
  if all_equivalent ins ins' then String.eqb (class_name k) (class_name k') else false.

(** Step.__eq__, workflow/core.py:306-313 *)
Definition step_eqb (s s' : step) : bool :=
  String.eqb (st_label s) (st_label s')
  && all_equivalent (st_inputs s) (st_inputs s')
  && all_equivalent (st_group s) (st_group s')
  && (match st_display s, st_display s' with
      | Some a, Some b => Nat.eqb a b | None, None => true | _, _ => false end)
  && Nat.eqb (String.length (st_doc s)) (String.length (st_doc s'))
  && (match st_index s, st_index s' with
      | Some a, Some b => Z.eqb a b | None, None => true | _, _ => false end).

(** [set(pairs) == set(pairs')] *)
Definition pair_eqb (p q : nat * nat) : bool := Nat.eqb (fst p) (fst q) && Nat.eqb (snd p) (snd q).
Definition set_eqb (l l' : list (nat * nat)) : bool :=
  forallb (fun p => memb pair_eqb p l') l && forallb (fun p => memb pair_eqb p l) l'.

(** Workflow.variable_index, workflow/core.py:1098-1100 *)
Definition variable_index (d : workflow) (v : nat) : res nat :=
  of_option ValueError (index_of Nat.eqb v (variables d)).

Definition pipe_index (d : workflow) (p : nat * nat) : res (nat * nat) :=
  let* i := variable_index d (fst p) in
  let* o := variable_index d (snd p) in Ok (i, o).

(** Workflow._equivalent_pipes, workflow/core.py:518-529 *)
Definition equivalent_pipes (d d' : workflow) : res bool :=
  let zipped := combine (pipes d) (pipes d') in
  let* ps := mapM (fun pp => pipe_index d (fst pp)) zipped in
  let* ps' := mapM (fun pp => pipe_index d' (snd pp)) zipped in
  Ok (set_eqb ps ps').

(** [self.variable_indices(self.output)], workflow/core.py:1048-1067 *)
Definition output_indices (d : workflow) : res (option address) :=
  match output d with
  | None => Ok None
  | Some o => let* a := variable_indices d o in Ok (Some a)
  end.

Section Lists.
Context {A B : Type}.
(** [sum(f(b) for b in blocks)], the blocks given with their inputs *)
Section Sum.
Variable f : A -> B -> res Z.
Fixpoint sum_res (l : list A) (r : list B) : res Z :=
  match l, r with
  | x :: l, y :: r => let* h := f x y in let* hs := sum_res l r in Ok (h + hs)
  | _, _ => Ok 0
  end.
End Sum.
(** the loop over [zip(self.blocks, other.blocks)]: the first difference answers *)
Section All.
Variable f : A -> B -> A -> B -> res bool.
Fixpoint all_res (l : list A) (r : list B) (l' : list A) (r' : list B) : res bool :=
  match l, r, l', r' with
  | x :: l, y :: r, x' :: l', y' :: r' =>
      let* b := f x y x' y' in if b then all_res l r l' r' else Ok false
  | _, _, _, _ => Ok true
  end.
End All.
End Lists.

(** the inputs of the blocks of a workflow *)
Definition block_inputs (w : wf) : list (list variable_info) := map (fun b => map (info w) (b_in b)) (blocks (diagram w)).

(** Workflow.locked_inputs, workflow/core.py:421-423 *)
Definition input_infos (w : wf) : list variable_info := map (info w) (inputs (diagram w)).
Definition locked_count (ins : list variable_info) : Z := Z.of_nat (List.length (filter v_locked ins)).

Definition len (s : string) : Z := Z.of_nat (String.length s).

Section Hashes.
Variable hash_string : string -> Z.
Variable hash_number : Z -> Z.
Variable hash_address : option address -> Z.
Variable hash_display : option nat -> Z.
Variable hash_configuration : nat -> Z.

(** DessiaFilter.__hash__, core.py:868-872 *)
Definition hash_filter (f : filter_) : Z :=
  len (f_attribute f) + hash_string (f_comparison f) + hash_number (f_bound f).

(** Step.__hash__, workflow/core.py:302-304: the index is added, even when it is None *)
Definition hash_step (s : step) : res Z :=
  match st_index s with
  | None => Err TypeError
  | Some i => Ok (hash_string (st_label s) + 43 * Z.of_nat (List.length (st_inputs s))
                  + 19 * Z.of_nat (List.length (st_group s)) + hash_display (st_display s) + len (st_doc s) + i)
  end.

Definition sum (l : list Z) : Z := fold_right Z.add 0 l.

(** Workflow._data_hash, workflow/core.py:475-480, and [equivalent_hash] of the blocks:
    workflow/core.py:193-199, workflow/blocks.py:95-97, 158-161, 234-237, 306-308,
    346-348, 398-400, 479-482, 554-556, 581-583, 614-616, 671-674, 799-801, 864-866,
    960-962, 1173-1175, 1213-1216, 1265-1267, 1309-1311, 1380-1382 *)
Fixpoint wf_hash (w : wf) : res Z :=
  match w with
  | Wf d info kinds steps =>
      let* o := output_indices d in
      let base := Z.of_nat (List.length (blocks d)) + 11 * Z.of_nat (List.length (pipes d))
                  + 23 * locked_count (input_infos w) + hash_address o in
      let* block_hash := sum_res (fun k ins => kind_hash k ins) kinds (block_inputs w) in
      let* step_hashes := mapM hash_step steps in
      Ok ((base + block_hash mod 1000000 + sum step_hashes) mod 1000000000)
  end
with kind_hash (k : kind) (ins : list variable_info) : res Z :=
  match k with
  | KInstantiate cls _ => Ok (len cls)
  | KClassMethod cls m | KModelMethod cls m => Ok (len cls + 7 * len m)
  | KSequence n | KConcatenate n | KProduct n | KSum n => Ok (Z.of_nat n)
  | KConcatStrings n sep => Ok (Z.of_nat n + hash_string sep)
  | KUnpacker l => Ok (Z.of_nat (List.length l))
  | KFlatten => Ok 1
  | KFilter l _ => Ok (sum (map hash_filter l) mod 1000000)
  | KMultiPlot _ l => Ok (sum (map len l))
  | KMultiObject l => Ok (sum (map hash_configuration l))
  | KModelAttribute a => Ok (len a)
  | KGetAttribute cls a => Ok (len cls + 7 * len a)
  | KSetAttribute _ a => Ok (3 + len a)
  | KExport _ _ | KPlain _ _ => Ok (len (class_name k) + 7 * locked_count ins)
  | KWorkflow w => wf_hash w
  | KForEach w _ i => let* h := wf_hash w in Ok (h mod 1000000 + i)
  end.

(** DessiaObject.__eq__ (core.py:116-129) of two workflows with Workflow._data_eq
    (workflow/core.py:482-496), and [equivalent] of the blocks: workflow/blocks.py:99-103,
    163-169, 239-245, 310-312, 350-352, 402-406, 484-488, 543-545, 618-620, 658-660,
    794-797, 859-862, 955-958, 1177-1179, 1218-1224, 1269-1271, 1313-1315, 1384-1388 *)
Fixpoint wf_eq (w w' : wf) : res bool :=
  match w with
  | Wf d info kinds_ steps_ =>
      let* h := wf_hash w in
      let* h' := wf_hash w' in
      if negb (Z.eqb h h') then Ok false
      else if negb (all_equivalent (input_infos w) (input_infos w')) then Ok false
      else
        let* same_blocks := all_res (fun k ins k' ins' => kind_equivalent k ins k' ins')
                              kinds_ (block_inputs w) (kinds w') (block_inputs w') in
        if negb same_blocks then Ok false
        else
          let* same_pipes := equivalent_pipes d (diagram w') in
          if negb same_pipes then Ok false
          else Ok (forallb (fun ss => step_eqb (fst ss) (snd ss)) (combine steps_ (steps w')))
  end
with kind_equivalent (k : kind) (ins : list variable_info) (k' : kind) (ins' : list variable_info) : res bool :=
  let base := base_equivalent k ins k' ins' in
  match k with
  | KInstantiate _ m => let* m' := model_metaclass k' in Ok (base && String.eqb m m')
  | KClassMethod c m | KModelMethod c m =>
      let* cm := method_type k' in
      Ok (base && String.eqb c (fst cm) && String.eqb m (snd cm))
  | KSequence n | KConcatenate n => if base then let* n' := number_arguments k' in Ok (Nat.eqb n n') else Ok false
  | KProduct n => if base then let* n' := number_list k' in Ok (Nat.eqb n n') else Ok false
  | KSum n => if base then let* n' := number_elements k' in Ok (Nat.eqb n n') else Ok false
  | KConcatStrings n sep =>
      let* n' := number_elements k' in
      let* sep' := separator k' in
      Ok (base && Nat.eqb n n' && String.eqb sep sep')
  | KUnpacker l => if base then let* l' := indices k' in Ok (list_eqb Z.eqb l l') else Ok false
  | KFilter l _ => if base then let* l' := filters k' in Ok (list_eqb filter_eqb l l') else Ok false
  | KMultiPlot _ l => let* l' := attributes k' in Ok (base && list_eqb String.eqb l l')
  | KMultiObject l => let* l' := configurations k' in Ok (base && list_eqb Nat.eqb l l')
  | KModelAttribute a => if base then let* a' := attribute_name k' in Ok (String.eqb a a') else Ok false
  | KGetAttribute c a =>
      let* ca := attribute_type k' in
      Ok (base && String.eqb c (fst ca) && String.eqb a (snd ca))
  | KSetAttribute _ a => if base then let* ca := attribute_type k' in Ok (String.eqb a (snd ca)) else Ok false
  | KFlatten | KExport _ _ | KPlain _ _ => Ok base
  | KWorkflow w => if base then let* w' := inner_workflow k' in wf_eq w w' else Ok false
  | KForEach w block_ins i =>
      let* f := for_each k' in
      let '(w', block_ins', i') := f in
      let* same := (if all_equivalent block_ins block_ins' then wf_eq w w' else Ok false) in
      Ok (base && same && Z.eqb i i')
  end.
End Hashes.

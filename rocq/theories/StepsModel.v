(** Model of the edition of workflow steps (dessia_common/workflow/core.py:1418-1576). *)
From Coq Require Import ZArith String List Bool.
From Verif Require Import Base.
Import ListNotations.

(** Variables are compared by identity ([_eq_is_data_eq = False],
    workflow/core.py:49 and core.py:116-129): a variable is a number. *)
Notation var := nat (only parsing).

(** workflow/core.py:282-300.  Only what editing touches is kept; [s_display]
    groups [display_setting], [group_inputs] and [display_variable_index], which
    are always set and reset together (workflow/core.py:334-342).  [group_id] and
    [id_] (random identifiers) are left out. *)
Record step := mkStep {
  s_label : string;
  s_inputs : list var;
  s_display : option (string * list var * Z);
  s_doc : string }.

(** The part of a Workflow that step edition changes (workflow/core.py:400-409).
    Steps are values here while they are mutable objects in python; the two views
    agree as long as the same Step object does not sit twice in [steps]. *)
Record st := mkSt { spare : list var; steps : list step }.

(** Result of an edit: the state python is left in, and the exception if any. *)
Definition outcome := (st * option exn)%type.

Definition set_inputs (s : step) (l : list var) : step :=
  mkStep (s_label s) l (s_display s) (s_doc s).

Fixpoint update_nth {A} (n : nat) (f : A -> A) (l : list A) : list A :=
  match l, n with
  | [], _ => []
  | x :: l', 0 => f x :: l'
  | x :: l', S n' => x :: update_nth n' f l'
  end.

Fixpoint remove_nth {A} (n : nat) (l : list A) : list A :=
  match l, n with
  | [], _ => []
  | _ :: l', 0 => l'
  | x :: l', S n' => x :: remove_nth n' l'
  end.

(** Indices of the elements satisfying a predicate. *)
Fixpoint find_indices {A} (p : A -> bool) (i : nat) (l : list A) : list nat :=
  match l with
  | [] => []
  | x :: l' => if p x then i :: find_indices p (S i) l' else find_indices p (S i) l'
  end.

(** [l.insert(i, x)]: out-of-range indices are clamped. *)
Definition py_insert {A} (i : Z) (x : A) (l : list A) : list A :=
  let n := Z.of_nat (length l) in
  let j := if (i <? 0)%Z then Z.max 0 (i + n) else Z.min i n in
  firstn (Z.to_nat j) l ++ x :: skipn (Z.to_nat j) l.

(** [l[:i]] *)
Definition py_prefix {A} (i : Z) (l : list A) : list A :=
  let n := Z.of_nat (length l) in
  let j := if (i <? 0)%Z then Z.max 0 (i + n) else Z.min i n in
  firstn (Z.to_nat j) l.

Section Steps.
(** [self.inputs] *)
Variable inputs : list var.
(** [self.upstream_inputs(self.variables[i])] (workflow/core.py:1034-1046); its
    result is a [list(set(...))], hence in arbitrary order. *)
Variable upstream : Z -> res (list var).
(** whether [variable.available_display_settings] has the selector
    (core.py:1211-1216 raises ValueError otherwise). *)
Variable has_selector : Z -> string -> bool.

(** workflow/core.py:1490-1496; a step is designated by its index. *)
Definition find_input_step (s : st) (v : var) : res (option nat) :=
  match find_indices (fun x => memb Nat.eqb v (s_inputs x)) 0 (steps s) with
  | [] => Ok None
  | [k] => Ok (Some k)
  | _ => Err ValueError
  end.

Definition append_to_step (k : nat) (v : var) (s : st) : st :=
  mkSt (spare s) (update_nth k (fun x => set_inputs x (s_inputs x ++ [v])) (steps s)).

(** [self.steps[k].inputs.remove(v)] *)
Definition remove_from_step (k : nat) (v : var) (s : st) : outcome :=
  match nth_error (steps s) k with
  | None => (s, Some IndexError)   (* not reachable: k comes from find_input_step *)
  | Some x =>
    match remove_first Nat.eqb v (s_inputs x) with
    | Ok l => (mkSt (spare s) (update_nth k (fun y => set_inputs y l) (steps s)), None)
    | Err e => (s, Some e)
    end
  end.

(** workflow/core.py:1418-1424 *)
Definition change_input_step (input_index new_step_index : Z) (s : st) : outcome :=
  match py_get inputs input_index with
  | Err e => (s, Some e)
  | Ok input =>
    match find_input_step s input with
    | Err e => (s, Some e)
    | Ok current_step =>
      match py_index (length (steps s)) new_step_index with
      | None => (s, Some IndexError)
      | Some k =>
        let s1 := append_to_step k input s in
        match current_step with
        | None =>
          match remove_first Nat.eqb input (spare s1) with
          | Ok l => (mkSt l (steps s1), None)
          | Err e => (s1, Some e)
          end
        | Some c => remove_from_step c input s1
        end
      end
    end
  end.

(** A python [for] loop over edits: stops at the first exception. *)
Fixpoint edit_loop {A} (f : A -> st -> outcome) (l : list A) (s : st) : outcome :=
  match l with
  | [] => (s, None)
  | x :: l' => match f x s with
               | (s', None) => edit_loop f l' s'
               | r => r
               end
  end.

(** workflow/core.py:1426-1430 *)
Definition change_inputs_step (input_indices : list Z) (new_step_index : Z) (s : st) : outcome :=
  edit_loop (fun i => change_input_step i new_step_index) input_indices s.

(** workflow/core.py:1432-1438: the input is appended to the spare inputs before
    its step is looked for; [None.inputs] raises AttributeError. *)
Definition remove_input_from_step (input_index : Z) (s : st) : outcome :=
  match py_get inputs input_index with
  | Err e => (s, Some e)
  | Ok input =>
    let s1 := mkSt (spare s ++ [input]) (steps s) in
    match find_input_step s1 input with
    | Err e => (s1, Some e)
    | Ok None => (s1, Some AttributeError)
    | Ok (Some c) => remove_from_step c input s1
    end
  end.

(** workflow/core.py:1091-1096 for a variable without upstream variable. *)
Definition input_index (v : var) : option nat := index_of Nat.eqb v inputs.

Definition zsubset (a b : list Z) : bool := forallb (fun x => memb Z.eqb x b) a.
(** [set(a) == set(b)] *)
Definition zset_eq (a b : list Z) : bool := zsubset a b && zsubset b a.

(** workflow/core.py:1440-1448; a [None] index (variable that is not an input)
    never equals an integer of the order, hence ValueError. *)
Definition reorder_step_inputs (step_index : Z) (order : list Z) (s : st) : outcome :=
  match py_index (length (steps s)) step_index with
  | None => (s, Some IndexError)
  | Some k =>
    match nth_error (steps s) k with
    | None => (s, Some IndexError)
    | Some x =>
      match mapM (fun v => of_option ValueError (input_index v)) (s_inputs x) with
      | Err e => (s, Some e)
      | Ok idx =>
        if zset_eq (map Z.of_nat idx) order then
          match mapM (py_get inputs) order with
          | Ok l => (mkSt (spare s) (update_nth k (fun y => set_inputs y l) (steps s)), None)
          | Err e => (s, Some e)
          end
        else (s, Some ValueError)
      end
    end
  end.

(** workflow/core.py:1450-1457 *)
Definition insert_step (label : string) (step_index : option Z) (s : st) : outcome :=
  let x := mkStep label [] None EmptyString in
  match step_index with
  | None => (mkSt (spare s) (steps s ++ [x]), None)
  | Some i => (mkSt (spare s) (py_insert i x (steps s)), None)
  end.

Definition on_step (step_index : Z) (f : step -> step) (s : st) : outcome :=
  match py_index (length (steps s)) step_index with
  | None => (s, Some IndexError)
  | Some k => (mkSt (spare s) (update_nth k f (steps s)), None)
  end.

(** workflow/core.py:1459-1463 *)
Definition rename_step (step_index : Z) (label : string) : st -> outcome :=
  on_step step_index (fun x => mkStep label (s_inputs x) (s_display x) (s_doc x)).

(** workflow/core.py:1465-1473 *)
Definition reorder_steps (order : list Z) (s : st) : outcome :=
  if negb (Nat.eqb (length order) (length (steps s))) then (s, Some ValueError)
  else if negb (Nat.eqb (length (dedup Z.eqb [] order)) (length (steps s))) then (s, Some ValueError)
  else match mapM (py_get (steps s)) order with
       | Ok l => (mkSt (spare s) l, None)
       | Err e => (s, Some e)
       end.

(** Body of the loop of workflow/core.py:1478-1480 for the item at position
    [pos] of the list being iterated in reverse. *)
Definition remove_step_item (k : nat) (pos : nat) (s : st) : outcome :=
  match nth_error (steps s) k with
  | None => (s, None)
  | Some x =>
    match nth_error (s_inputs x) pos with
    | None => (s, None)                   (* the reversed iterator is exhausted *)
    | Some v =>
      match index_of Nat.eqb v inputs with
      | None => (s, Some ValueError)
      | Some i => remove_input_from_step (Z.of_nat i) s
      end
    end
  end.

(** workflow/core.py:1475-1482.  [reversed(step.inputs)] walks positions
    [len-1 .. 0] of the list while it shrinks. *)
Definition remove_step (step_index : Z) (s : st) : outcome :=
  match py_index (length (steps s)) step_index with
  | None => (s, Some IndexError)
  | Some k =>
    match nth_error (steps s) k with
    | None => (s, Some IndexError)
    | Some x =>
      match edit_loop (remove_step_item k) (rev (seq 0 (length (s_inputs x)))) s with
      | (s1, None) => (mkSt (spare s1) (remove_nth k (steps s1)), None)
      | r => r
      end
    end
  end.

(** workflow/core.py:1484-1488 *)
Definition reset_steps (s : st) : outcome :=
  edit_loop (fun i => remove_step (Z.of_nat i)) (rev (seq 0 (length (steps s)))) s.

(** workflow/core.py:1498-1512 *)
Definition add_step_display (variable_index step_index : Z) (selector : string) (s : st) : outcome :=
  match upstream variable_index with
  | Err e => (s, Some e)
  | Ok ups =>
    let previous := concat (map s_inputs (py_prefix step_index (steps s))) in
    let move v s :=
      if memb Nat.eqb v previous then (s, None)
      else match input_index v with
           | None => (s, Some TypeError)           (* self.inputs[None] *)
           | Some i => change_input_step (Z.of_nat i) step_index s
           end in
    match edit_loop move ups s with
    | (s1, None) =>
      match py_index (length (steps s1)) step_index with
      | None => (s1, Some IndexError)
      | Some k =>
        if has_selector variable_index selector then
          (mkSt (spare s1)
             (update_nth k (fun x => mkStep (s_label x) (s_inputs x)
                                       (Some (selector, ups, variable_index)) (s_doc x))
                (steps s1)), None)
        else (s1, Some ValueError)
      end
    | r => r
    end
  end.

(** workflow/core.py:1514-1518 *)
Definition remove_step_display (step_index : Z) : st -> outcome :=
  on_step step_index (fun x => mkStep (s_label x) (s_inputs x) None (s_doc x)).

(** workflow/core.py:1550-1554 *)
Definition save_step_documentation (step_index : Z) (doc : string) : st -> outcome :=
  on_step step_index (fun x => mkStep (s_label x) (s_inputs x) (s_display x) doc).

(** Edits a user can make from the frontend. *)
Inductive op :=
| ChangeInputStep (i new : Z)
| ChangeInputsStep (is : list Z) (new : Z)
| RemoveInputFromStep (i : Z)
| ReorderStepInputs (k : Z) (order : list Z)
| InsertStep (label : string) (k : option Z)
| RenameStep (k : Z) (label : string)
| ReorderSteps (order : list Z)
| RemoveStep (k : Z)
| ResetSteps
| AddStepDisplay (v k : Z) (selector : string)
| RemoveStepDisplay (k : Z)
| SaveStepDocumentation (k : Z) (doc : string).

Definition exec (o : op) (s : st) : outcome :=
  match o with
  | ChangeInputStep i new => change_input_step i new s
  | ChangeInputsStep is new => change_inputs_step is new s
  | RemoveInputFromStep i => remove_input_from_step i s
  | ReorderStepInputs k order => reorder_step_inputs k order s
  | InsertStep label k => insert_step label k s
  | RenameStep k label => rename_step k label s
  | ReorderSteps order => reorder_steps order s
  | RemoveStep k => remove_step k s
  | ResetSteps => reset_steps s
  | AddStepDisplay v k sel => add_step_display v k sel s
  | RemoveStepDisplay k => remove_step_display k s
  | SaveStepDocumentation k doc => save_step_documentation k doc s
  end.

(** An editing session: exceptions are reported to the user, who carries on
    from the state python was left in.  Returns the final state and the list of
    outcomes. *)
Fixpoint session (ops : list op) (s : st) : st * list (option exn) :=
  match ops with
  | [] => (s, [])
  | o :: ops' =>
    let (s1, e) := exec o s in
    let (s2, es) := session ops' s1 in (s2, e :: es)
  end.

(** workflow/core.py:403-409: initial state from the given steps. *)
Definition initial (given : list step) : st :=
  match given with
  | [] => mkSt inputs []
  | _ => mkSt (filter (fun v => negb (memb Nat.eqb v (concat (map s_inputs given)))) inputs) given
  end.

End Steps.

(** Model of the displays a workflow offers at each of its steps (/repo/dessia_common/workflow/core.py:1393-1416). *)
From Coq Require Import List Bool Arith.
From Verif Require Import Base.
Import ListNotations.
Local Open Scope list_scope.

Section Offered.
(** Display settings as dictionaries, and labels. *)
Context {D L : Type}.
(** Variables are numbers, compared by identity (core.py:49).  An output of a block that has display settings,
    core.py:1392-1394, with the inputs upstream of it, core.py:1034-1046, in any order. *)
Record shown := Shown { variable : nat; upstream : list nat; settings : list D; label : L }.

(** list.index *)
Definition index (l : list nat) (v : nat) : res nat := of_option ValueError (index_of Nat.eqb v l).
(** d[k] = x: a key keeps its place. *)
Fixpoint set_item {X : Type} (d : list (nat * X)) (k : nat) (x : X) : list (nat * X) :=
  match d with
  | [] => [(k, x)]
  | (k', y) :: d => if k' =? k then (k, x) :: d else (k', y) :: set_item d k x
  end.

(** core.py:1407-1413: a step goes through the outputs; the labels are shared. *)
Fixpoint offer (variables missing : list nat) (ds_inputs : list (shown * list nat)) (step : list (nat * list D)) (labels : list (nat * L))
    : res (list (nat * list D) * list (nat * L)) :=
  match ds_inputs with
  | [] => Ok (step, labels)
  | (output, indexes) :: ds_inputs =>
    if forallb (fun i => negb (memb Nat.eqb i missing)) indexes then
      let* output_index := index variables (variable output) in
      offer variables missing ds_inputs (set_item step output_index (settings output)) (set_item labels output_index (label output))
    else offer variables missing ds_inputs step labels
  end.
(** core.py:1405-1415; [steps] are the inputs of the steps, from the last one. *)
Fixpoint offers (variables inputs : list nat) (ds_inputs : list (shown * list nat)) (steps : list (list nat))
    (missing : list nat) (available : list (list (nat * list D))) (labels : list (nat * L)) : res (list (list (nat * list D)) * list (nat * L)) :=
  match steps with
  | [] => Ok (available, labels)
  | step :: steps =>
    let* r := offer variables missing ds_inputs [] labels in
    let* more := mapM (index inputs) step in
    offers variables inputs ds_inputs steps (missing ++ more) (available ++ [fst r]) (snd r)
  end.
(** displayable_display_settings, core.py:1396-1416; the outputs are keys of a dictionary and thus distinct. *)
Definition displayable_display_settings (variables inputs : list nat) (outputs : list shown) (steps : list (list nat))
    : res (list (list (nat * list D)) * list (nat * L)) :=
  let* ds_inputs := mapM (fun o => let* indexes := mapM (index inputs) (upstream o) in Ok (o, indexes)) outputs in
  let* r := offers variables inputs ds_inputs (rev steps) [] [] [] in
  Ok (rev (fst r), snd r).
End Offered.
Arguments shown : clear implicits.

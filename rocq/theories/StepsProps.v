(** Properties C19 and C20: step edition. *)
From Coq Require Import ZArith String List Permutation Lia.
From Verif Require Import Base BaseProofs StepsModel StepsSpec StepsProofs.
Import ListNotations.
Open Scope string_scope.
Open Scope list_scope.

(** In all statements [inputs] is the list of the workflow's inputs, [upstream]
    and [has_selector] arbitrary functions (which inputs a displayed variable
    depends on; which displays a variable has). *)

(** C19a: whatever the edits, successful or not, every input stays in exactly one
    place, provided orders are sensible and nobody takes out of its step an input
    that is not in a step. *)
Theorem C19_inputs_in_exactly_one_place :
  forall inputs upstream has_selector given ops s outcomes,
    NoDup inputs ->
    NoDup (concat (map s_inputs given)) ->
    (forall v, In v (concat (map s_inputs given)) -> In v inputs) ->
    Forall sensible ops ->
    session inputs upstream has_selector ops (initial inputs given) = (s, outcomes) ->
    removals_succeed ops outcomes ->
    Permutation (spare s ++ concat (map s_inputs (steps s))) inputs.
Proof.
  intros inputs up hs given ops s outs ND N1 N2 F H R.
  exact (session_part inputs ND up hs ops _ s outs F (initial_part inputs ND given N1 N2) H R).
Qed.
Print Assumptions C19_inputs_in_exactly_one_place.

(** C19b: moving an input succeeds for every existing input and step, puts it in
    that step, and leaves every other input where it was. *)
Theorem C19_change_input_step :
  forall inputs i new s v k,
    NoDup inputs ->
    in_exactly_one_place inputs s ->
    py_get inputs i = Ok v ->
    py_index (length (steps s)) new = Some k ->
    exists s',
      change_input_step inputs i new s = (s', None)
      /\ (forall p, located s' v p <-> p = InStep k)
      /\ (forall w p, w <> v -> (located s' w p <-> located s w p)).
Proof.
  intros inputs i new s v k ND P G K.
  destruct (change_input_step_succeeds inputs ND i new s P) as [s' E].
  - rewrite G; reflexivity.
  - congruence.
  - exists s'. split; auto.
    pose proof (change_input_step_part inputs ND _ _ _ _ _ P E) as [P' _].
    destruct (change_input_step_effect inputs ND _ _ _ _ _ _ P G K E) as [U O].
    split; auto. intros p; split; [|intros ->; auto].
    intros L. exact (located_unique inputs ND s' v p (InStep k) P' L U).
Qed.
Print Assumptions C19_change_input_step.

(** C19c: taking an input out of its step succeeds and makes it spare. *)
Theorem C19_remove_input_from_step :
  forall inputs n s v k,
    NoDup inputs ->
    in_exactly_one_place inputs s ->
    nth_error inputs n = Some v ->
    located s v (InStep k) ->
    exists s',
      remove_input_from_step inputs (Z.of_nat n) s = (s', None)
      /\ spare s' = spare s ++ [v]
      /\ in_exactly_one_place inputs s'.
Proof.
  intros inputs n s v k ND P G [x [N I]].
  destruct (remove_input_from_step_succeeds inputs ND n s v k x P G N I) as [r [_ R]].
  eexists; split; [exact R|]. split; auto.
  exact (proj1 (remove_input_from_step_ok inputs _ _ _ P R)).
Qed.
Print Assumptions C19_remove_input_from_step.

(** C19d: removing a step removes exactly that step and gives its inputs back. *)
Theorem C19_remove_step :
  forall inputs i s k x,
    NoDup inputs ->
    in_exactly_one_place inputs s ->
    py_index (length (steps s)) i = Some k -> nth_error (steps s) k = Some x ->
    remove_step inputs i s =
      (mkSt (spare s ++ rev (s_inputs x)) (firstn k (steps s) ++ skipn (S k) (steps s)), None).
Proof.
  intros inputs i s k x ND P K N.
  rewrite (remove_step_exact inputs ND i k x s P K N), (remove_nth_split _ _ _ N). reflexivity.
Qed.
Print Assumptions C19_remove_step.

(** C19e: a reset always succeeds and makes every input spare. *)
Theorem C19_reset_steps :
  forall inputs s,
    NoDup inputs -> in_exactly_one_place inputs s ->
    exists sp, reset_steps inputs s = (mkSt sp [], None) /\ Permutation sp inputs.
Proof. intros inputs s ND. exact (reset_steps_exact inputs ND s). Qed.
Print Assumptions C19_reset_steps.

(** C19f: reordering steps with ordinary indices permutes them, nothing else. *)
Theorem C19_reorder_steps :
  forall order s s',
    (forall i, In i order -> (0 <= i)%Z) ->
    reorder_steps order s = (s', None) ->
    spare s' = spare s /\ Permutation (steps s') (steps s).
Proof. exact reorder_steps_perm. Qed.
Print Assumptions C19_reorder_steps.

(** C19g: attaching a display puts every input the displayed variable depends on
    in that step or in an earlier one, and moves no other input. *)
Theorem C19_add_step_display :
  forall inputs upstream has_selector vi kz k sel s s' ups,
    NoDup inputs -> in_exactly_one_place inputs s ->
    py_index (length (steps s)) kz = Some k -> upstream vi = Ok ups ->
    add_step_display inputs upstream has_selector vi kz sel s = (s', None) ->
    (exists x, nth_error (steps s') k = Some x /\ s_display x = Some (sel, ups, vi))
    /\ (forall v, In v ups -> exists j, j <= k /\ located s' v (InStep j))
    /\ (forall v, ~ In v ups -> forall p, located s' v p <-> located s v p).
Proof. intros inputs up hs vi kz k sel s s' ups ND. exact (add_step_display_effect inputs ND up hs vi kz k sel s s' ups). Qed.
Print Assumptions C19_add_step_display.

(** C19h (finding): an order of inputs repeating an index duplicates an input,
    and an order of steps using colliding negative indices loses inputs. *)
Theorem C19_odd_orders_refuted :
  (exists inputs s s', NoDup inputs /\ in_exactly_one_place inputs s
     /\ reorder_step_inputs inputs 0 [0; 1; 0]%Z s = (s', None)
     /\ ~ in_exactly_one_place inputs s')
  /\ (exists inputs s s', NoDup inputs /\ in_exactly_one_place inputs s
     /\ reorder_steps [0; -2]%Z s = (s', None)
     /\ ~ in_exactly_one_place inputs s').
Proof.
  split.
  - exists [7; 8], (mkSt [] [mkStep "a" [7; 8] None ""]), (mkSt [] [mkStep "a" [7; 8; 7] None ""]).
    split; [repeat constructor; simpl; intuition congruence|].
    split; [apply Permutation_refl|]. split; [reflexivity|].
    intros H. apply Permutation_length in H. discriminate.
  - exists [7; 8; 9], (mkSt [] [mkStep "a" [7; 8] None ""; mkStep "b" [9] None ""]),
      (mkSt [] [mkStep "a" [7; 8] None ""; mkStep "a" [7; 8] None ""]).
    split; [repeat constructor; simpl; intuition congruence|].
    split; [apply Permutation_refl|]. split; [reflexivity|].
    intros H. apply Permutation_length in H. discriminate.
Qed.
Print Assumptions C19_odd_orders_refuted.

(** A session meeting the hypotheses of C19a: three inputs, a step inserted in
    front, inputs moved, a failing edit, a display that pulls an input in, steps
    reordered and one removed. *)
Example C19_example :
  let up := fun _ => Ok [12] in
  let sel := fun _ _ => true in
  let given := [mkStep "one" [11] None ""] in
  let ops := [InsertStep "zero" (Some 0%Z); ChangeInputStep 0 0; ChangeInputStep 5 0;
              ChangeInputsStep [0; 2]%Z (-1)%Z; AddStepDisplay 3 0 "markdown"; ReorderSteps [1; 0]%Z;
              RemoveInputFromStep 1; ReorderStepInputs 1 [2]%Z; RemoveStep 0] in
  session [10; 11; 12] up sel ops (initial [10; 11; 12] given)
    = (mkSt [11; 10] [mkStep "zero" [12] (Some ("markdown", [12], 3%Z)) ""],
       [None; None; Some IndexError; None; None; None; None; None; None])
  /\ Forall sensible ops
  /\ removals_succeed ops [None; None; Some IndexError; None; None; None; None; None; None].
Proof.
  split; [reflexivity|]. split.
  - repeat constructor; simpl; intuition; subst; discriminate.
  - intros n i e. do 9 (destruct n as [|n]; [simpl; intros A B; try discriminate; congruence|]).
    destruct n; discriminate.
Qed.

(** C20a: apart from three edits, a step edit that raises changes nothing. *)
Theorem C20_failed_edit_changes_nothing :
  forall inputs upstream has_selector o s s' e,
    NoDup inputs -> in_exactly_one_place inputs s ->
    match o with
    | RemoveInputFromStep _ | ChangeInputsStep _ _ | AddStepDisplay _ _ _ => False
    | _ => True
    end ->
    exec inputs upstream has_selector o s = (s', Some e) -> s' = s.
Proof.
  intros inputs up hs o s s' e ND P A H.
  exact (exec_failure_unchanged inputs ND up hs o s s' e A P H).
Qed.
Print Assumptions C20_failed_edit_changes_nothing.

(** C20b: moving several inputs and attaching a display may fail half way, but no
    input is lost or duplicated. *)
Theorem C20_failed_edit_keeps_inputs :
  forall inputs upstream has_selector o s s' e,
    NoDup inputs -> in_exactly_one_place inputs s ->
    match o with ChangeInputsStep _ _ | AddStepDisplay _ _ _ => True | _ => False end ->
    exec inputs upstream has_selector o s = (s', Some e) -> in_exactly_one_place inputs s'.
Proof.
  intros inputs up hs o s s' e ND P A H.
  apply (exec_part inputs ND up hs o s s' (Some e)); auto; destruct o; simpl; auto; contradiction.
Qed.
Print Assumptions C20_failed_edit_keeps_inputs.

(** C20c: exactly when taking an input out of its step fails, and what is left:
    either the index is wrong and nothing changes, or the input was spare and is
    now listed once more among the spare inputs. *)
Theorem C20_failed_removal :
  forall inputs i s s' e,
    NoDup inputs -> in_exactly_one_place inputs s ->
    remove_input_from_step inputs i s = (s', Some e) ->
    (py_get inputs i = Err e /\ s' = s)
    \/ (exists v, py_get inputs i = Ok v /\ In v (spare s)
          /\ e = AttributeError /\ s' = mkSt (spare s ++ [v]) (steps s)).
Proof. intros inputs i s s' e ND. exact (remove_input_failure inputs ND i s s' e). Qed.
Print Assumptions C20_failed_removal.

(** C20d (finding): the three edits do leave changes behind when they raise. *)
Theorem C20_atomicity_refuted :
  let s0 := mkSt [10; 11] [mkStep "a" [] None ""] in
  in_exactly_one_place [10; 11] s0
  /\ remove_input_from_step [10; 11] 0 s0
       = (mkSt [10; 11; 10] [mkStep "a" [] None ""], Some AttributeError)
  /\ change_inputs_step [10; 11] [0; 7]%Z 0 s0
       = (mkSt [11] [mkStep "a" [10] None ""], Some IndexError)
  /\ add_step_display [10; 11] (fun _ => Ok [11]) (fun _ _ => false) 0 0 "nope" s0
       = (mkSt [10] [mkStep "a" [11] None ""], Some ValueError).
Proof. repeat split; try reflexivity; apply Permutation_refl. Qed.
Print Assumptions C20_atomicity_refuted.

(** Hypotheses of C20a and C20c met by real failures. *)
Example C20_example :
  let s0 := mkSt [10] [mkStep "a" [11] None ""; mkStep "b" [] None ""] in
  in_exactly_one_place [10; 11] s0
  /\ exec [10; 11] (fun _ => Ok []) (fun _ _ => true) (ReorderSteps [0; 0]%Z) s0 = (s0, Some ValueError)
  /\ exec [10; 11] (fun _ => Ok []) (fun _ _ => true) (RemoveStep 2) s0 = (s0, Some IndexError)
  /\ exec [10; 11] (fun _ => Ok []) (fun _ _ => true) (ReorderStepInputs 0 [0; 1]%Z) s0 = (s0, Some ValueError).
Proof. repeat split; try reflexivity; apply Permutation_refl. Qed.

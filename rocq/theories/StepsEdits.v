(** C19 and C20, more: where a step is inserted, what an edit of one step changes, which edits raise. *)
From Coq Require Import ZArith String List Permutation Lia.
From Verif Require Import Base BaseProofs StepsModel StepsSpec StepsProofs.
Import ListNotations.
Open Scope string_scope.
Open Scope list_scope.

(** The position an index denotes in a list of [n] elements, as python reads it: from the end when it
    is negative. *)
Definition denotes (n : nat) (i : Z) (k : nat) : Prop :=
  k < n /\ (Z.of_nat k = i \/ Z.of_nat k = i + Z.of_nat n)%Z.
Definition no_such (n : nat) (i : Z) : Prop := (i < - Z.of_nat n \/ Z.of_nat n <= i)%Z.

Lemma py_index_denotes n i k : py_index n i = Some k <-> denotes n i k.
Proof.
  unfold py_index, denotes. destruct (Z.leb_spec 0 i).
  - destruct (Z.ltb_spec i (Z.of_nat n)).
    + split; [intros E; injection E as <-; lia|intros [L E]; f_equal; lia].
    + split; [discriminate|lia].
  - destruct (Z.leb_spec (- Z.of_nat n) i).
    + split; [intros E; injection E as <-; lia|intros [L E]; f_equal; lia].
    + split; [discriminate|lia].
Qed.
Lemma py_index_no_such n i : py_index n i = None <-> no_such n i.
Proof.
  unfold py_index, no_such. destruct (Z.leb_spec 0 i).
  - destruct (Z.ltb_spec i (Z.of_nat n)); split; try discriminate; auto; lia.
  - destruct (Z.leb_spec (- Z.of_nat n) i); split; try discriminate; auto; lia.
Qed.

Lemma index_of_in u (l : list nat) : In u l -> exists j, index_of Nat.eqb u l = Some j /\ j < length l.
Proof.
  induction l as [|y l IH]; intros I; [destruct I|]. cbn [index_of length]. destruct (Nat.eqb_spec u y); [exists 0; split; [reflexivity|lia]|].
  destruct IH as (j & -> & L); [destruct I; congruence|]. exists (S j). split; [reflexivity|lia].
Qed.

(** A new step is empty; without an index it is the last one, with an index it comes before the step
    the index denotes, first when the index is too low and last when it is too high. *)
Theorem C19_insert_step : forall label s,
  let x := mkStep label [] None "" in
  insert_step label None s = (mkSt (spare s) (steps s ++ [x]), None) /\
  (forall i k, denotes (length (steps s)) i k ->
     insert_step label (Some i) s = (mkSt (spare s) (firstn k (steps s) ++ x :: skipn k (steps s)), None)) /\
  (forall i, (Z.of_nat (length (steps s)) <= i)%Z -> insert_step label (Some i) s = (mkSt (spare s) (steps s ++ [x]), None)) /\
  (forall i, (i < - Z.of_nat (length (steps s)))%Z -> insert_step label (Some i) s = (mkSt (spare s) (x :: steps s), None)).
Proof.
  intros label s x. split; [reflexivity|]. unfold insert_step, py_insert. split; [|split].
  - intros i k [L E]. destruct (Z.ltb_spec i 0).
    + replace (Z.to_nat (Z.max 0 (i + Z.of_nat (length (steps s))))) with k by lia. reflexivity.
    + replace (Z.to_nat (Z.min i (Z.of_nat (length (steps s))))) with k by lia. reflexivity.
  - intros i H. destruct (Z.ltb_spec i 0); [lia|].
    replace (Z.to_nat (Z.min i (Z.of_nat (length (steps s))))) with (length (steps s)) by lia.
    rewrite firstn_all, skipn_all. reflexivity.
  - intros i H. destruct (Z.ltb_spec i 0); [|lia].
    replace (Z.to_nat (Z.max 0 (i + Z.of_nat (length (steps s))))) with 0 by lia. reflexivity.
Qed.

(** Renaming, documenting and taking a display away change this of the step that is denoted only. *)
Theorem C19_edit_one_step : forall inputs upstream has_selector s i k x,
  denotes (length (steps s)) i k -> nth_error (steps s) k = Some x ->
  let exec := exec inputs upstream has_selector in
  let with_step y := mkSt (spare s) (firstn k (steps s) ++ y :: skipn (S k) (steps s)) in
  (forall label, exec (RenameStep i label) s = (with_step (mkStep label (s_inputs x) (s_display x) (s_doc x)), None)) /\
  (forall doc, exec (SaveStepDocumentation i doc) s = (with_step (mkStep (s_label x) (s_inputs x) (s_display x) doc), None)) /\
  exec (RemoveStepDisplay i) s = (with_step (mkStep (s_label x) (s_inputs x) None (s_doc x)), None).
Proof.
  intros inputs upstream has_selector s i k x D N exec with_step. apply py_index_denotes in D.
  assert (E : forall f, on_step i f s = (with_step (f x), None)).
  { intros f. unfold on_step, with_step. rewrite D. destruct (update_nth_split k f (steps s) x N) as [_ ->]. reflexivity. }
  repeat split; intros; cbn [exec StepsModel.exec]; unfold exec, StepsModel.exec, rename_step, save_step_documentation, remove_step_display; rewrite E; reflexivity.
Qed.

(** The step an edit is about. *)
Definition about_step (o : op) : option Z :=
  match o with
  | ChangeInputStep _ k | ReorderStepInputs k _ | RenameStep k _ | RemoveStep k | AddStepDisplay _ k _
  | RemoveStepDisplay k | SaveStepDocumentation k _ => Some k
  | _ => None
  end.

(** An edit about a step that does not exist raises IndexError and changes nothing. *)
Theorem C20_no_such_step : forall inputs upstream has_selector o s i,
  NoDup inputs -> in_exactly_one_place inputs s ->
  (forall v ups, upstream v = Ok ups -> forall u, In u ups -> In u inputs) -> (forall v k sel, o = AddStepDisplay v k sel -> exists ups, upstream v = Ok ups) ->
  about_step o = Some i -> no_such (length (steps s)) i ->
  exec inputs upstream has_selector o s = (s, Some IndexError).
Proof.
  intros inputs upstream has_selector o s i ND P HU HA E N. apply py_index_no_such in N.
  assert (C : forall j, change_input_step inputs j i s = (s, Some IndexError)).
  { intros j. unfold change_input_step. unfold py_get. destruct (py_index (length inputs) j) as [k|] eqn:K; [|reflexivity].
    destruct (nth_error inputs k) as [v|]; [|reflexivity].
    pose proof (find_input_step_char s v (part_steps_nodup inputs ND s P)) as F. destruct (find_input_step s v) as [c|]; [|destruct F].
    rewrite N. reflexivity. }
  destruct o as [a b| | |a b| |a b| |a| |v a b|a|a b]; try discriminate; injection E as ->;
    cbn [exec]; unfold reorder_step_inputs, rename_step, remove_step, remove_step_display, save_step_documentation, on_step; rewrite ?N; auto.
  destruct (HA v i b eq_refl) as [ups U]. unfold add_step_display. rewrite U.
  set (previous := concat (map s_inputs (py_prefix i (steps s)))).
  match goal with |- match edit_loop ?f _ _ with _ => _ end = _ => set (move := f) end.
  assert (M : edit_loop move ups s = (s, None) \/ edit_loop move ups s = (s, Some IndexError)).
  { specialize (HU v ups U). clear U HA. induction ups as [|u ups IH]; [left; reflexivity|]. cbn [edit_loop].
    unfold move at 1 3. destruct (memb Nat.eqb u previous); [apply IH; intros; apply HU; right; auto|].
    unfold input_index. destruct (index_of_in u inputs) as (j & J & _); [apply HU; left; auto|].
    rewrite J, C. right. reflexivity. }
  destruct M as [-> | ->]; [rewrite N|]; reflexivity.
Qed.

(** Attaching a display succeeds for each existing step, when the variable has this display and the
    inputs it depends on are known; it raises the exception of that otherwise, or ValueError when the
    variable has no such display. *)
Theorem C20_display_succeeds : forall inputs upstream has_selector v i k sel s,
  NoDup inputs -> in_exactly_one_place inputs s -> denotes (length (steps s)) i k ->
  (forall e, upstream v = Err e -> add_step_display inputs upstream has_selector v i sel s = (s, Some e)) /\
  (forall ups, upstream v = Ok ups -> (forall u, In u ups -> In u inputs) ->
     (has_selector v sel = true -> exists s', add_step_display inputs upstream has_selector v i sel s = (s', None)) /\
     (has_selector v sel = false -> exists s', add_step_display inputs upstream has_selector v i sel s = (s', Some ValueError))).
Proof.
  intros inputs upstream has_selector v i k sel s ND P D. apply py_index_denotes in D. unfold add_step_display. split; [intros e ->; reflexivity|].
  intros ups -> HU. set (previous := concat (map s_inputs (py_prefix i (steps s)))).
  match goal with |- (_ -> exists s', match edit_loop ?f _ _ with _ => _ end = _) /\ _ => set (move := f) end.
  assert (M : exists s1, edit_loop move ups s = (s1, None) /\ length (steps s1) = length (steps s)).
  { assert (G : forall s0, in_exactly_one_place inputs s0 -> length (steps s0) = length (steps s) ->
       exists s1, edit_loop move ups s0 = (s1, None) /\ length (steps s1) = length (steps s)).
    { induction ups as [|u ups IH]; intros s0 P0 L0; [eexists; split; [reflexivity|auto]|]. cbn [edit_loop].
      unfold move at 1. destruct (memb Nat.eqb u previous); [apply IH; auto; intros; apply HU; right; auto|].
      unfold input_index. destruct (index_of_in u inputs) as (j & J & Lj); [apply HU; left; auto|]. rewrite J.
      destruct (change_input_step_succeeds inputs ND (Z.of_nat j) i s0 P0) as [s1 E1].
      - unfold py_get. rewrite (proj2 (py_index_denotes _ _ j)) by (split; [auto|lia]).
        destruct (nth_error inputs j) eqn:Ej; [reflexivity|]. apply nth_error_None in Ej. lia.
      - rewrite L0, D. discriminate.
      - rewrite E1. destruct (change_input_step_part inputs ND _ _ _ _ _ P0 E1) as (P1 & L1 & _).
        apply IH; [intros; apply HU; right; auto|auto|lia]. }
    apply G; auto. }
  destruct M as (s1 & -> & L1). rewrite L1, D. split; intros ->; eexists; reflexivity.
Qed.

Example no_such_case : let s := mkSt [10] [mkStep "a" [11] None ""] in
  in_exactly_one_place [10; 11] s /\ no_such (length (steps s)) 1%Z /\ denotes (length (steps s)) (-1)%Z 0 /\
  insert_step "b" (Some (-1)%Z) s = (mkSt [10] [mkStep "b" [] None ""; mkStep "a" [11] None ""], None).
Proof. cbv zeta. split; [apply Permutation_refl|]. split; [right; cbn; lia|]. split; [split; cbn; lia|]. reflexivity. Qed.

Print Assumptions C19_insert_step.
Print Assumptions C19_edit_one_step.
Print Assumptions C20_no_such_step.
Print Assumptions C20_display_succeeds.

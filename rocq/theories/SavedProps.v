(** C56: a workflow saved as a dictionary and read again. *)
From Coq Require Import ZArith Bool String Ascii Arith Lia List.
From Verif Require Import Base BaseProofs ExecModel ExecSpec ExecStruct WiringModel WiringSpec WiringProofs WiringProps VariablesModel ScriptModel ScriptSpec SavedModel SavedSpec SavedProofs SavedBack SavedMain SavedRestore.
Import ListNotations.
Open Scope string_scope.
Open Scope list_scope.

Section Props.
Context {V J : Type}.
Notation wf := (wf V).
Variable params : cls -> string -> list (VariablesModel.variable V string).
Variable text : string -> V.
Variable ser : V -> res J.
Variable des : J -> res V.
Notation sound := (sound params text).
Notation back := (back params text).
Notation restorable := (restorable params text).
Notation recovered := (recovered ser des).
Notation writable := (writable ser).
Notation write_wf := (write_wf ser).
Notation read_wf := (read_wf params text des).

(** to_dict succeeds exactly when every locked variable, at every level, has a default
    value and every default value can be serialised. *)
Theorem C56_written (w : wf) : sound w ->
  ((exists j, write_wf w = Ok j) <-> forall x, In x (all_variables w) ->
     (v_lock x = true -> v_default x <> None) /\ forall v, v_default x = Some v -> exists j, ser v = Ok j).
Proof.
  intros S0. rewrite (write_iff params text ser w S0). rewrite Forall_forall. reflexivity.
Qed.

(** A workflow where no port stands unlocked for a locked one is read, as it was but for
    what [back] tells. *)
Theorem C56_read_back (w : wf) j : unlocked_params params -> sound w -> write_wf w = Ok j -> recovered (all_variables w) ->
  keeps_locks w -> exists w', read_wf j = Ok w' /\ back true w w'.
Proof. intros UP S0 E R K. exact (main params text ser des UP true w j S0 E R K). Qed.

(** Any workflow that is read is as it was, but for what [back] tells and ports locked
    because the one they stand for is. *)
Theorem C56_locks_added (w w' : wf) j : unlocked_params params -> sound w -> write_wf w = Ok j -> recovered (all_variables w) ->
  read_wf j = Ok w' -> back false w w'.
Proof.
  intros UP S0 E R H. destruct (main params text ser des UP false w j S0 E R (ex_intro _ w' H)) as [w2 [A B]].
  rewrite H in A. inversion A; subst. exact B.
Qed.

(** It is the same workflow exactly when nothing of what is not restored was changed. *)
Theorem C56_restored (w w' : wf) j : unlocked_params params -> sound w -> write_wf w = Ok j -> recovered (all_variables w) ->
  read_wf j = Ok w' -> (same w w' <-> restorable w /\ keeps_locks w).
Proof.
  intros UP S0 E R H. split.
  - intros SM. exact (only_all params text w S0 w' (C56_locks_added w w' j UP S0 E R H) SM).
  - intros [RS K]. destruct (C56_read_back w j UP S0 E R K) as [w2 [A B]]. rewrite H in A. inversion A; subst w2.
    exact (restored_all params text w S0 RS w' B).
Qed.

(** A workflow that was read, if it can be saved, is read again identical. *)
Theorem C56_stable (w w' : wf) j j' : unlocked_params params -> sound w -> write_wf w = Ok j -> recovered (all_variables w) ->
  read_wf j = Ok w' -> write_wf w' = Ok j' -> exists w'', read_wf j' = Ok w'' /\ same w' w''.
Proof.
  intros UP S0 E R H E'. pose proof (C56_locks_added w w' j UP S0 E R H) as B.
  destruct (kept_all params text w S0 w' B) as [S' [RS [K F]]].
  pose proof (recovered_from ser des _ _ R F) as R'.
  destruct (C56_read_back w' j' UP S' E' R' K) as [w2 [A B2]]. exists w2. split; auto.
  exact (restored_all params text w' S' RS w2 B2).
Qed.

(** A workflow where no port stands unlocked for a locked one can be saved again once it
    is read. *)
Theorem C56_saved_again (w w' : wf) j : unlocked_params params -> sound w -> write_wf w = Ok j -> recovered (all_variables w) ->
  keeps_locks w -> read_wf j = Ok w' -> exists j', write_wf w' = Ok j'.
Proof.
  intros UP S0 E R K H. destruct (C56_read_back w j UP S0 E R K) as [w2 [A B]]. rewrite H in A. inversion A; subst w2.
  destruct (kept_all params text w S0 w' (C56_locks_added w w' j UP S0 E R H)) as [S' [_ [_ F]]].
  apply (write_iff params text ser w' S').
  pose proof (good_all params text UP w S0 (written_locks params text ser w j S0 E) w' B) as G.
  rewrite Forall_forall in G |- *. intros x I. split; [exact (G x I)|]. intros v D.
  assert (W := proj1 (write_iff params text ser w S0) (ex_intro _ j E)). rewrite Forall_forall in W.
  destruct (F x I) as [N|[y [Iy Dy]]]; [congruence|]. apply (W y Iy). congruence.
Qed.

(** Without deprecated displays, and when the user gives no value for a locked non block
    variable, a run computes the same values. *)
Theorem C56_same_values (w w' : wf) j (user : list (nat * V)) (evaluate : nat -> list V -> res (list V)) :
  unlocked_params params -> sound w -> write_wf w = Ok j -> recovered (all_variables w) -> keeps_locks w -> read_wf j = Ok w' ->
  (forall p, In p (parts w) -> deprecated p = false) ->
  (forall i x v, In (i, x) user -> nth_error (inputs (diagram w)) i = Some v -> In v (nonblock_variables (diagram w)) ->
     v_lock (info w v) = false) ->
  exists h, inputs (diagram w') = map h (inputs (diagram w)) /\ output (diagram w') = option_map h (output (diagram w))
  /\ forall v x, In v (variables (diagram w)) ->
    (has_value (diagram w') (given_by (diagram w') (fun u => v_default (info w' u)) (fun u => v_lock (info w' u)) user) evaluate (h v) x
     <-> has_value (diagram w) (given_by (diagram w) (fun u => v_default (info w u)) (fun u => v_lock (info w u)) user) evaluate v x).
Proof.
  intros UP S0 E R K H D U. destruct (C56_read_back w j UP S0 E R K) as [w2 [A B]]. rewrite H in A. inversion A; subst w2.
  pose proof (wf_of params text w S0) as WF. destruct (same_given params text w w' S0 B D) as [h [SEP [Dg G]]]. exists h. rewrite Dg.
  split; [exact (inputs_map _ WF h SEP)|]. split; [reflexivity|]. intros v x I. apply C41_same_diagram_same_values; auto.
  clear v x I. intros v I. unfold given_by. destruct (G v I) as [G1 G2]. rewrite G1, G2, (find_relabel ser _ h user v WF SEP I).
  destruct (mem v (nonblock_variables (diagram w))) eqn:M; [|reflexivity]. apply mem_In in M.
  destruct (v_lock (info w v)) eqn:L; [|reflexivity].
  destruct (find _ user) as [[i x]|] eqn:Fd; [|reflexivity]. exfalso. apply find_some in Fd. destruct Fd as [I1 I2]. cbn [fst] in I2.
  destruct (nth_error (inputs (diagram w)) i) as [u|] eqn:N; [|discriminate]. apply Nat.eqb_eq in I2. subst u.
  rewrite (U i x v I1 N M) in L. discriminate.
Qed.
End Props.

(** ** Examples: values are numbers *)
Ltac computed := match goal with |- exists x, ?e = Ok x /\ _ =>
  let r := eval vm_compute in e in match r with Ok ?y => exists y; split; [vm_compute; reflexivity|] end end.
Ltac saved := match goal with |- exists j w', ?e = Ok j /\ ?f = Ok w' /\ _ =>
  let r := eval vm_compute in e in match r with Ok ?y => exists y end end; match goal with |- exists w', _ /\ ?f = Ok w' /\ _ =>
  let r := eval vm_compute in f in match r with Ok ?y => exists y end end; split; [vm_compute; reflexivity|]; split; [vm_compute; reflexivity|].
Section Examples.
Let params : cls -> string -> list (VariablesModel.variable nat string) := fun _ _ => [].
Let text : string -> nat := fun _ => 0.
Let num (v : nat) : res nat := Ok v.
Let free (n : string) : variable nat tag := mkVar None false (mkTag n "" (0, 0)%Z).
Let locked (v : nat) (n : string) : variable nat tag := mkVar (Some v) true (mkTag n "" (0, 0)%Z).
Let result := mkVar (V := nat) None false (mkTag "_result_name_" "Result Name" (0, 0)%Z).
Let one : workflow := mkWf [mkBlock [0] [1]] [] (Some 1).
Let table (l : list (variable nat tag)) (v : nat) := nth v l (free "").

(** A Flatten whose input is [x]. *)
Let flat (x : variable nat tag) : wf nat :=
  Wf one (table [x; free "Flattened sequence"]) [Part (KConf CFlatten) "f" (0, 0)%Z] [] [result] "" "" "flat".
(** [w] in a WorkflowBlock "b" whose input is [x]. *)
Let around (w : wf nat) (x : variable nat tag) : wf nat :=
  Wf one (table [x; free "Flattened sequence"]) [Part (KWorkflow w) "b" (0, 0)%Z] [] [result] "" "" "around".

Let one_ok : well_formed one.
Proof.
  split.
  - repeat constructor; simpl; intuition discriminate.
  - constructor.
  - intros s t [].
  - intros s t b [].
  - intros o E. inversion E; subst. exists (mkBlock [0] [1]). simpl. auto.
Qed.
Let flat_ok x : sound params text (flat x).
Proof. split; [exact one_ok|]. split; [|intros s []]. cbn. repeat split; auto. Qed.
Let around_ok w x : sound params text w -> diagram w = one -> sound params text (around w x).
Proof.
  intros S0 D. split; [exact one_ok|]. split; [|intros s []]. split; [|exact I]. split; [exact S0|]. rewrite D. split; [discriminate|]. split; reflexivity.
Qed.

(** The input of a WorkflowBlock is unlocked while the one it stands for is locked: it
    comes back locked, here without value, so that the workflow that was read cannot be
    saved, and cannot be read at all when it is itself in a WorkflowBlock. *)
Theorem C56_unlocked_port_refuted :
  let w := around (flat (locked 5 "Sequence")) (free "b - Sequence") in
  let w2 := around w (free "b - b - Sequence") in
  sound params text w2 /\ recovered num num (all_variables w2)
  /\ (exists j w', write_wf num w = Ok j /\ read_wf params text num j = Ok w' /\ info w 0 = free "b - Sequence"
        /\ info w' 0 = mkVar None true (mkTag "b - Sequence" "" (0, 0)%Z) /\ write_wf num w' = Err ValueError)
  /\ (exists j, write_wf num w2 = Ok j /\ read_wf params text num j = Err ValueError).
Proof.
  split; [|split; [|split]].
  - apply around_ok; [|reflexivity]. apply around_ok; [|reflexivity]. apply flat_ok.
  - intros x v j _ _ E. inversion E. reflexivity.
  - saved. split; [|split]; vm_compute; reflexivity.
  - computed. vm_compute. reflexivity.
Qed.

(** Five workflows that can be saved and read, but do not come back as they were: a
    locked non block variable, a port with another name, a step with a display variable
    but no display setting, a detached variable, and a deprecated display whose input has
    a default value. *)
Let nbv : wf nat := Wf (mkWf [mkBlock [0] [1]] [(2, 0)] (Some 1)) (table [free "Sequence"; free "Flattened sequence"; locked 5 "x"])
  [Part (KConf CFlatten) "f" (0, 0)%Z] [] [result] "" "" "nbv".
Let stepped : wf nat := Wf one (table [free "Sequence"; free "Flattened sequence"]) [Part (KConf CFlatten) "f" (0, 0)%Z]
  [mkStep "s" [0] "" [] None "" (Some 1) "1"] [result] "" "" "stepped".
Let loose : wf nat := Wf one (table [free "Sequence"; free "Flattened sequence"]) [Part (KConf CFlatten) "f" (0, 0)%Z] [] [free "other"; result] "" "" "loose".
Let old : wf nat := Wf one (table [mkVar (Some 5) false (mkTag "Model to display" "" (0, 0)%Z); free "Display Object"])
  [Part (KConf (COldView PlotData "plot_data" false)) "f" (0, 0)%Z] [] [result] "" "" "old".

Theorem C56_lost_refuted :
  Forall (fun w => sound params text w /\ keeps_locks w /\ exists j w', write_wf num w = Ok j /\ read_wf params text num j = Ok w'
                   /\ back params text true w w' /\ ~ same w w')
    [nbv; flat (free "Renamed"); stepped; loose; old]
  /\ (exists j w', write_wf num nbv = Ok j /\ read_wf params text num j = Ok w' /\ info w' 2 = mkVar (Some 5) false (mkTag "x" "" (0, 0)%Z))
  /\ (exists j w', write_wf num (flat (free "Renamed")) = Ok j /\ read_wf params text num j = Ok w' /\ info w' 0 = free "Sequence")
  /\ (exists j w', write_wf num stepped = Ok j /\ read_wf params text num j = Ok w' /\ map st_index (steps w') = [None])
  /\ (exists j w', write_wf num loose = Ok j /\ read_wf params text num j = Ok w' /\ detached w' = [result])
  /\ (exists j w', write_wf num old = Ok j /\ read_wf params text num j = Ok w' /\ info w' 0 = free "Model to display").
Proof.
  assert (UP : unlocked_params params) by (intros c m x []).
  assert (G : forall w j w', sound params text w -> keeps_locks w -> write_wf num w = Ok j -> read_wf params text num j = Ok w' ->
    ~ restorable params text w -> sound params text w /\ keeps_locks w /\ exists j w', write_wf num w = Ok j /\ read_wf params text num j = Ok w'
                   /\ back params text true w w' /\ ~ same w w').
  { intros w j w' S0 K E R N. split; auto. split; auto. exists j, w'. split; auto. split; auto.
    assert (RC : recovered num num (all_variables w)) by (intros x v y _ _ Q; inversion Q; reflexivity).
    destruct (C56_read_back params text num num w j UP S0 E RC K) as [w2 [A B]]. rewrite R in A. inversion A; subst w2. split; auto.
    intros SM. apply N. apply (C56_restored params text num num w w' j UP S0 E RC R). exact SM. }
  Local Ltac saved_as G := match goal with |- sound ?p ?t ?w /\ _ =>
    let r := eval vm_compute in (write_wf (fun v : nat => Ok v) w) in match r with Ok ?y =>
    let q := eval vm_compute in (read_wf (fun _ _ => []) (fun _ => 0) (fun v : nat => Ok v) y) in match q with Ok ?z =>
      apply (G w y z); [| |vm_compute; reflexivity|vm_compute; reflexivity|] end end end.
  split; [repeat (apply Forall_cons || apply Forall_nil)|].
  - saved_as G.
    + split; [|split; [|intros s []]]; [|cbn; repeat split; auto]. split.
      * repeat constructor; simpl; intuition discriminate.
      * repeat constructor; simpl; tauto.
      * intros s t [E|[]]. inversion E; subst. exists (mkBlock [0] [1]). simpl. auto.
      * intros s t b [E|[]] [<-|[]]. inversion E; subst. simpl. intuition discriminate.
      * intros o E. inversion E; subst. exists (mkBlock [0] [1]). simpl. auto.
    + cbn. auto.
    + intros [H _]. specialize (H 2 (or_introl eq_refl)). discriminate H.
  - saved_as G.
    + apply flat_ok.
    + cbn. auto.
    + intros [_ [_ [_ [[_ [ins [outs [C [P _]]]]] _]]]]. inversion C; subst. destruct P as [[P _] _]. discriminate P.
  - saved_as G.
    + split; [exact one_ok|]. split; [cbn; repeat split; auto|]. intros s [<-|[]]. split; intros v I; cbn in *; tauto.
    + cbn. auto.
    + intros [_ [H _]]. specialize (H _ (or_introl eq_refl) eq_refl). discriminate H.
  - saved_as G.
    + split; [exact one_ok|]. split; [cbn; repeat split; auto|]. intros s [].
    + cbn. auto.
    + intros [_ [_ [H _]]]. discriminate H.
  - saved_as G.
    + split; [exact one_ok|]. split; [cbn; repeat split; auto|]. intros s [].
    + cbn. auto.
    + intros [_ [_ [_ [[_ [ins [outs [C [P _]]]]] _]]]]. inversion C; subst. destruct P as [P _]. discriminate P.
  - repeat split; saved; vm_compute; reflexivity.
Qed.
End Examples.

Print Assumptions C56_written.
Print Assumptions C56_read_back.
Print Assumptions C56_locks_added.
Print Assumptions C56_restored.
Print Assumptions C56_stable.
Print Assumptions C56_saved_again.
Print Assumptions C56_same_values.
Print Assumptions C56_unlocked_port_refuted.
Print Assumptions C56_lost_refuted.

(** A Substraction with a locked operand, in a ForEach followed by a Flatten and fed by a
    non block variable; a step shows the plot of the result.  All of it comes back. *)
Section Example.
Let params : cls -> string -> list (VariablesModel.variable nat string) := fun _ _ => [].
Let text : string -> nat := fun _ => 0.
Let num (v : nat) : res nat := Ok v.
Let var (dv : option nat) (l : bool) (n lab : string) : variable nat tag := mkVar dv l (mkTag n lab (0, 0)%Z).
Let table (l : list (nat * variable nat tag)) (v : nat) :=
  match find (fun e => Nat.eqb (fst e) v) l with Some e => snd e | None => var None false "" "" end.
Let inner : wf nat :=
  Wf (mkWf [mkBlock [0; 1] [2]] [] (Some 2))
     (table [(0, var None false "+" "left"); (1, var (Some 3) true "-" ""); (2, var None false "Substraction" "")])
     [Part (KConf CSubstraction) "minus" (1, 2)%Z] [] [var None false "_result_name_" "Result Name"] "short" "long" "inner".
Let plot := mkDisplay (Some "plot") "plot_data" "display" [("reference_path", JText "#")] true false.
Let outer : wf nat :=
  Wf (mkWf [mkBlock [10; 11] [12]; mkBlock [13] [14]] [(12, 13); (20, 10)] (Some 14))
     (table [(10, var None false "Iterable input: it - +" "many"); (11, var (Some 4) true "Binding: it - -" "");
             (12, var None false "Foreach output" ""); (13, var None false "Sequence" ""); (14, var None false "Flattened sequence" "");
             (20, var (Some 7) false "x" "the list")])
     [Part (KForEach inner [var None false "it - +" ""; var (Some 3) true "it - -" "kept"] [var None false "Substraction" ""] "it" (3, 4)%Z 0) "loop" (5, 6)%Z;
      Part (KConf CFlatten) "flat" (7, 8)%Z]
     [mkStep "first" [20; 11] "g" [20] (Some plot) "doc" (Some 1) "id"] [var None false "_result_name_" "Result Name"] "d" "doc" "outer".

Example C56_example :
  sound params text outer /\ keeps_locks outer /\ restorable params text outer
  /\ exists j w', write_wf num outer = Ok j /\ read_wf params text num j = Ok w' /\ same outer w'
     /\ diagram w' = mkWf [mkBlock [0; 1] [2]; mkBlock [3] [4]] [(2, 3); (5, 0)] (Some 4)
     /\ map (info w') (inputs (diagram w')) = [var (Some 4) true "Binding: it - -" ""; var (Some 7) false "x" "the list"]
     /\ steps w' = [mkStep "first" [5; 1] "g" [5] (Some plot) "doc" (Some 1) "id"].
Proof.
  assert (UP : unlocked_params params) by (intros c m x []).
  assert (S0 : sound params text outer).
  { split; [|split].
    - split.
      + repeat constructor; simpl; intuition discriminate.
      + repeat constructor; simpl; intuition discriminate.
      + intros s t [E|[E|[]]]; inversion E; subst; [exists (mkBlock [13] [14])|exists (mkBlock [10; 11] [12])]; simpl; auto.
      + intros s t b [E|[E|[]]] [<-|[<-|[]]]; inversion E; subst; simpl; intuition discriminate.
      + intros o E. inversion E; subst. exists (mkBlock [13] [14]). simpl. auto.
    - split; [|split; [|exact I]].
      + split; [|cbn; repeat split; auto; discriminate].
        split; [|split; [cbn; repeat split; auto|intros s []]]. split.
        * repeat constructor; simpl; intuition discriminate.
        * constructor.
        * intros s t [].
        * intros s t b [].
        * intros o E. inversion E; subst. exists (mkBlock [0; 1] [2]). simpl. auto.
      + cbn. auto.
    - intros s [<-|[]]. split; intros v I; cbn in *; tauto. }
  assert (K : keeps_locks outer).
  { cbn. split; [|auto]. split; [auto|]. split; [auto|]. split.
    - intros o x E [<-|[]]. inversion E. cbn. auto.
    - intros [|[|[|k]]] x y D Nx Ny; cbn in *; try congruence. intros _. inversion Ny. reflexivity. }
  assert (RS : restorable params text outer).
  { split; [intros v [<-|[]]; reflexivity|]. split; [intros s [<-|[]] E; discriminate E|]. split; [reflexivity|]. split; [|split; [|exact I]].
    - split.
      + split; [|eexists; eexists; split; [reflexivity|cbn; auto 10]].
        split; [intros v []|]. split; [intros s []|]. split; [reflexivity|]. split; [|exact I]. split; [exact I|].
        eexists; eexists; split; [reflexivity|cbn; auto 10].
      + eexists; eexists; split; [reflexivity|cbn; auto 10].
    - split; [exact I|]. eexists; eexists; split; [reflexivity|cbn; auto 10]. }
  split; [exact S0|]. split; [exact K|]. split; [exact RS|].
  assert (H : exists j w', write_wf num outer = Ok j /\ read_wf params text num j = Ok w'
     /\ diagram w' = mkWf [mkBlock [0; 1] [2]; mkBlock [3] [4]] [(2, 3); (5, 0)] (Some 4)
     /\ map (info w') (inputs (diagram w')) = [var (Some 4) true "Binding: it - -" ""; var (Some 7) false "x" "the list"]
     /\ steps w' = [mkStep "first" [5; 1] "g" [5] (Some plot) "doc" (Some 1) "id"]).
  { saved. split; [|split]; vm_compute; reflexivity. }
  destruct H as [j [w' [E [R H]]]]. exists j, w'. split; [exact E|]. split; [exact R|]. split; [|exact H].
  refine (proj2 (C56_restored params text num num outer w' j UP S0 E _ R) (conj RS K)).
  intros x v y _ _ Q. inversion Q. reflexivity.
Qed.
End Example.

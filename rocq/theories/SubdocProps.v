(** Properties of the documentation of the inputs of blocks. *)
From Coq Require Import List Bool Arith String Lia.
From Verif Require Import Base BaseProofs SubdocModel SubdocSpec SubdocProofs.
Import ListNotations.

Section Props.
Variable doc : Type.
Variable EMPTY FAILED : doc.
Notation block := (block doc).
Notation docstring := (docstring doc EMPTY).
Notation parse_input_doc := (parse_input_doc doc EMPTY FAILED).

(** C92. The inputs of blocks without docstring have the empty documentation. *)
Theorem C92_basic ins i : parse_input_doc (Basic doc ins) i = EMPTY.
Proof.
  unfold SubdocModel.parse_input_doc. cbn. destruct (in_dec Nat.eq_dec i (map fst (map (fun i => (i, EMPTY)) ins))) as [I|I].
  - destruct (dict_of_some _ _ _ I) as (x & -> & J). apply in_map_iff in J as (k & E & _). congruence.
  - rewrite dict_of_out by exact I. reflexivity.
Qed.

(** C92. Those of documented blocks have what is written for their name, the empty documentation when nothing is. *)
Theorem C92_documented ins l i n x : NoDup (map fst ins) -> In (i, n) ins -> NoDup (map fst l) -> In (n, x) l ->
  parse_input_doc (Documented doc ins (Ok l)) i = x.
Proof.
  intros ND I NL J. unfold SubdocModel.parse_input_doc. cbn.
  assert (A : attribute doc n l = Some x).
  { clear - NL J. induction l as [|[m y] l IH]; [destruct J|]. cbn in *. inversion NL; subst. destruct J as [E|J].
    - injection E as -> ->. rewrite String.eqb_refl. reflexivity.
    - destruct (String.eqb_spec n m) as [->|_]; [|apply IH; assumption]. exfalso. apply H1. apply in_map_iff. exists (m, x). split; [reflexivity|exact J]. }
  rewrite (dict_of_in doc _ i x); [reflexivity| |].
  - rewrite (fst_map doc _ fst) by reflexivity. exact ND.
  - apply in_map_iff. exists (i, n). cbn. rewrite A. split; [reflexivity|exact I].
Qed.
Theorem C92_undocumented ins l i n : NoDup (map fst ins) -> In (i, n) ins -> ~ In n (map fst l) ->
  parse_input_doc (Documented doc ins (Ok l)) i = EMPTY.
Proof.
  intros ND I N. unfold SubdocModel.parse_input_doc. cbn.
  assert (A : attribute doc n l = None).
  { clear - N. induction l as [|[m y] l IH]; [reflexivity|]. cbn in *. destruct (String.eqb_spec n m) as [->|_]; [tauto|apply IH; tauto]. }
  rewrite (dict_of_in doc _ i EMPTY); [reflexivity| |].
  - rewrite (fst_map doc _ fst) by reflexivity. exact ND.
  - apply in_map_iff. exists (i, n). cbn. rewrite A. split; [reflexivity|exact I].
Qed.
(** C92. When the docstring cannot be parsed, all inputs are marked as failed, and so are all those of a block made of a
    workflow that has such a block. *)
Theorem C92_failed ins e i : parse_input_doc (Documented doc ins (Err e)) i = FAILED.
Proof. reflexivity. Qed.
Theorem C92_failed_inside ins w wins ins' e i : In (Documented doc ins' (Err e)) w ->
  parse_input_doc (WorkflowBlock doc ins w wins) i = FAILED /\ parse_input_doc (ForEach doc ins w wins) i = FAILED.
Proof.
  intros I. unfold SubdocModel.parse_input_doc. rewrite wb_eq, each_eq.
  assert (H : exists e', mapM docstring w = Err e').
  { induction w as [|b w IH]; [destruct I|]. cbn [mapM]. destruct I as [->|I]; [cbn; eauto|].
    destruct (docstring b); cbn [bind]; [|eauto]. destruct (IH I) as [e' ->]. cbn. eauto. }
  destruct H as [e' ->]. split; reflexivity.
Qed.

(** C92. Refuted: an input of a block made of a workflow never has the documentation of the input of the workflow. *)
Theorem C92_nested_refuted ins w wins i : In i ins -> (forall j, In j ins -> ~ In j wins) ->
  parse_input_doc (WorkflowBlock doc ins w wins) i = EMPTY \/ parse_input_doc (WorkflowBlock doc ins w wins) i = FAILED.
Proof.
  intros I N. unfold SubdocModel.parse_input_doc. rewrite wb_eq. destruct (mapM docstring w) as [ds|]; [|right; reflexivity].
  cbn [bind]. rewrite wb_out by (apply N, I). left. reflexivity.
Qed.

Lemma mapM_readable w : (forall b, In b w -> readable doc b) -> exists ds, mapM docstring w = Ok ds.
Proof.
  induction w as [|b w IH]; intros H; [eexists; reflexivity|]. cbn [mapM]. destruct (readable_ok doc EMPTY b (H b (or_introl eq_refl))) as (d & -> & _).
  destruct IH as [ds ->]; [intros b' I; apply H; right; exact I|]. cbn. eauto.
Qed.
Lemma mapM_in w : forall ds, mapM docstring w = Ok ds ->
  (forall d, In d ds -> exists b, In b w /\ docstring b = Ok d) /\ (forall b d, In b w -> docstring b = Ok d -> In d ds).
Proof.
  induction w as [|b w IH]; intros ds E; cbn [mapM] in E.
  - injection E as <-. split; [intros d []|intros b d []].
  - destruct (docstring b) as [d0|] eqn:Eb; [|discriminate]. cbn [bind] in E. destruct (mapM docstring w) as [ds0|] eqn:Ew; [|discriminate].
    injection E as <-. destruct (IH ds0 eq_refl) as [A B]. split.
    + intros d [<-|I]; [exists b; split; [left; reflexivity|exact Eb]|]. destruct (A d I) as (b' & I' & E'). exists b'. split; [right; exact I'|exact E'].
    + intros b' d [<-|I] E'; [left; congruence|right; apply (B b' d I E')].
Qed.

(** C92. An input of a ForEach has the documentation of the corresponding input of the workflow, when the workflow has no
    block made of a workflow and all its inputs are inputs of blocks. *)
Theorem C92_each ins w wins k i j b :
  List.length ins = List.length wins -> NoDup ins -> (forall b, In b w -> readable doc b) ->
  (forall j, In j wins -> exists b, In b w /\ In j (inputs doc b) /\ forall b', In b' w -> In j (inputs doc b') -> b' = b) ->
  nth_error ins k = Some i -> nth_error wins k = Some j -> In b w -> In j (inputs doc b) ->
  parse_input_doc (ForEach doc ins w wins) i = parse_input_doc b j.
Proof.
  intros L ND R U Hi Hj Ib Jb. destruct (mapM_readable w R) as [ds Ed]. destruct (mapM_in w ds Ed) as [A B].
  assert (G : forall j b, In j wins -> In b w -> In j (inputs doc b) ->
    exists d x, docstring b = Ok d /\ get doc j d = Some x /\ get doc j (workflow_block_docstring doc ds wins) = Some x).
  { intros j' b0 I' Ib0 Jb0. destruct (U j' I') as (b1 & I1 & J1 & U1). rewrite (U1 b0 Ib0 Jb0).
    destruct (readable_ok doc EMPTY b1 (R b1 I1)) as (d & Eb & X). destruct (X j' J1) as [x Ex]. exists d, x. repeat split; [exact Eb|exact Ex|].
    apply wb_in; [exact I'|exists d; split; [apply (B b1 d I1 Eb)|exact Ex]|]. intros d' Id'. destruct (A d' Id') as (b2 & I2 & E2).
    destruct (get doc j' d') as [y|] eqn:Ey; [|left; reflexivity]. right. pose proof (keys doc EMPTY b2 d' j' y E2 Ey) as K.
    assert (b2 = b1) as ->; [|congruence]. apply U1; [exact I2|]. specialize (R b2 I2). destruct b2; try exact K; destruct R. }
  assert (C : map fst (combine ins wins) = ins).
  { clear - L. revert wins L. induction ins as [|a ins IH]; intros [|c wins] L; cbn in *; try discriminate; [reflexivity|]. rewrite IH by lia. reflexivity. }
  destruct (each_fold doc (workflow_block_docstring doc ds wins) (combine ins wins)) with (acc := @nil (nat * doc)) as (r & Er & Gr).
  - rewrite C. exact ND.
  - intros [a c] I. apply in_combine_r in I. destruct (U c I) as (b1 & I1 & J1 & _). destruct (G c b1 I I1 J1) as (d & x & _ & _ & E). cbn. eauto.
  - unfold SubdocModel.parse_input_doc. rewrite each_eq, Ed. cbn [bind]. unfold for_each_docstring. rewrite Er.
    rewrite (Gr i j).
    + destruct (G j b (nth_error_In _ _ Hj) Ib Jb) as (d & x & -> & -> & ->). reflexivity.
    + clear - Hi Hj. revert wins k Hi Hj. induction ins as [|a ins IH]; intros [|c wins] [|k] Hi Hj; cbn in *; try discriminate.
      * left. congruence.
      * right. apply (IH wins k Hi Hj).
Qed.

(** C92. Refuted: when one input of the workflow is no input of a block, or an input of a block made of a workflow, all inputs
    of the ForEach are marked as failed. *)
Theorem C92_each_refuted ins w wins j i :
  List.length ins = List.length wins -> In j wins -> (forall b, In b w -> ~ described doc b j) ->
  parse_input_doc (ForEach doc ins w wins) i = FAILED.
Proof.
  intros L J N. unfold SubdocModel.parse_input_doc. rewrite each_eq. destruct (mapM docstring w) as [ds|] eqn:Ed; [|reflexivity]. cbn [bind].
  destruct (mapM_in w ds Ed) as [A _].
  assert (K : exists a, In (a, j) (combine ins wins)).
  { clear - L J. revert wins L J. induction ins as [|a ins IH]; intros [|c wins] L J; cbn in *; try discriminate; [destruct J|].
    destruct J as [->|J]; [eauto|]. destruct (IH wins ltac:(lia) J) as [a' H]. eauto. }
  destruct K as [a K]. unfold for_each_docstring. rewrite (each_fold_err doc _ _ (a, j) K); [reflexivity|].
  cbn [snd]. apply wb_none. intros d Id. destruct (A d Id) as (b & Ib & Eb). destruct (get doc j d) as [x|] eqn:E; [|reflexivity].
  exfalso. apply (N b Ib). exact (keys doc EMPTY b d j x Eb E).
Qed.
End Props.

(** Inputs 1 and 2 of a documented block, seen through a ForEach, a WorkflowBlock and a ForEach of a WorkflowBlock *)
Open Scope string_scope.
Definition power : block string := Documented string [(1, "base"); (2, "exponent")] (Ok [("base", "number to raise")]).
Example C92_each_example :
  map (parse_input_doc string "" "failed" (ForEach string [11; 12; 13] [Basic string [3]; power] [3; 1; 2])) [11; 12; 13] = [""; "number to raise"; ""].
Proof. reflexivity. Qed.
Example C92_nested_example :
  map (parse_input_doc string "" "failed" (WorkflowBlock string [11; 12] [power] [1; 2])) [11; 12] = [""; ""].
Proof. reflexivity. Qed.
Example C92_each_nested_example :
  map (parse_input_doc string "" "failed" (ForEach string [21; 22] [WorkflowBlock string [11; 12] [power] [1; 2]] [11; 12])) [21; 22] = ["failed"; "failed"].
Proof. reflexivity. Qed.
Example C92_each_shared_example :
  map (parse_input_doc string "" "failed" (ForEach string [11; 12] [power] [1; 5])) [11; 12] = ["failed"; "failed"].
Proof. reflexivity. Qed.

Print Assumptions C92_basic.
Print Assumptions C92_documented.
Print Assumptions C92_undocumented.
Print Assumptions C92_failed.
Print Assumptions C92_failed_inside.
Print Assumptions C92_nested_refuted.
Print Assumptions C92_each.
Print Assumptions C92_each_refuted.

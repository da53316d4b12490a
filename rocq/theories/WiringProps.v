(** Properties C27 (pipes rebuilt) and C41: saving, loading and copying a workflow. *)
From Coq Require Import Bool Arith Lia List.
From Verif Require Import Base BaseProofs ExecModel ExecSpec ExecStruct VariablesModel WiringModel WiringSpec WiringProofs ExecProps.
Import ListNotations.

(** Loading what was saved gives the same diagram over the new variables. *)
Theorem C27_pipes_rebuilt (w : workflow) (f : nat -> nat) :
  well_formed w -> rebuild f w = Ok (relabel f w).
Proof. intros WF. exact (rebuild_ok w WF f). Qed.

(** A copy is the same diagram over variables of its own. *)
Theorem C41_copy_same_diagram (w : workflow) (f : nat -> nat) (next : nat) :
  well_formed w ->
  (forall u v, In u (block_variables w) -> In v (block_variables w) -> f u = f v -> u = v) ->
  (forall v, In v (block_variables w) -> f v < next /\ ~ In (f v) (variables w)) ->
  (forall v, In v (variables w) -> v < next) ->
  exists h, deepcopy f next w = Ok (relabel h w)
    /\ separates h w
    /\ (forall v, In v (variables w) -> ~ In (h v) (variables w))
    /\ (forall v, In v (block_variables w) -> h v = f v)
    /\ inputs (relabel h w) = map h (inputs w)
    /\ variables (relabel h w) = map h (variables w)
    /\ nonblock_variables (relabel h w) = map h (nonblock_variables w).
Proof.
  intros WF FI FB FN. exists (copy_of w f next).
  assert (SEP : separates (copy_of w f next) w) by (apply copy_of_separates; firstorder).
  split; [apply deepcopy_ok; auto|]. split; auto. split.
  { apply copy_of_fresh; auto. intros v I. apply FB; auto. }
  split; [intros v I; exact (copy_of_port w WF f next v I)|].
  split; [exact (inputs_map w WF _ SEP)|]. split; [exact (variables_map w WF _ SEP)|exact (nbv_map w WF _ SEP)].
Qed.

(** The same diagram computes the same values. *)
Theorem C41_same_diagram_same_values {V} (w : workflow) (h : nat -> nat) (evaluate : nat -> list V -> res (list V))
    (given given' : nat -> option V) :
  well_formed w -> separates h w ->
  (forall v, In v (variables w) -> given' (h v) = given v) ->
  forall v x, In v (variables w) ->
  (has_value (relabel h w) given' evaluate (h v) x <-> has_value w given evaluate v x).
Proof. intros WF SEP G v x I. exact (hv_relabel_iff w WF h SEP given given' evaluate G v x I). Qed.

(** Steps of a copy hold the copies of the variables of the steps. *)
Theorem C41_copied_steps (w : workflow) (h : nat -> nat) (ins groups : list nat) :
  well_formed w -> separates h w -> incl ins (variables w) ->
  copy_step w (relabel h w) ins groups = Ok (map h ins, map h (filter (fun v => mem v groups) ins)).
Proof. intros WF SEP I. exact (copy_step_ok w h ins groups WF SEP I). Qed.

(** Locked inputs are locked in the copy, with the same value; the others are left as
    their block copy made them. *)
Theorem C41_locks_survive {V L} (w : workflow) (h : nat -> nat) (vars copied : nat -> variable V L) :
  well_formed w -> separates h w ->
  (forall v, In v (inputs w) -> exists b, is_locked (vars v) = Ok b) ->
  exists m, copy_locks (inputs w) (inputs (relabel h w)) vars copied = Ok m
    /\ forall v, In v (inputs w) ->
       (is_locked (vars v) = Ok true -> is_locked (m (h v)) = Ok true /\ v_default (m (h v)) = v_default (vars v))
       /\ (is_locked (vars v) = Ok false -> m (h v) = copied (h v)).
Proof.
  intros WF SEP HL. rewrite (inputs_map w WF h SEP).
  destruct (copy_locks_ok (inputs w) vars HL (map h (inputs w)) copied) as [m [E A]].
  - apply map_length.
  - pose proof (inputs_nodup w WF) as ND.
    assert (I : incl (inputs w) (variables w)) by (intros v J; unfold inputs in J; apply filter_In in J; tauto).
    clear - ND I SEP. induction (inputs w) as [|v l IH]; simpl; [constructor|]. inversion ND; subst. constructor.
    + intros J. apply in_map_iff in J. destruct J as [u [E J]]. apply SEP in E.
      * subst; auto.
      * apply I; simpl; auto.
      * apply I; simpl; auto.
    + apply IH; auto. intros x J; apply I; simpl; auto.
  - exists m. split; auto. intros v J. destruct (In_nth_error _ _ J) as [i Ni]. apply (A i v (h v) Ni).
    rewrite nth_error_map, Ni. reflexivity.
Qed.

Print Assumptions C27_pipes_rebuilt.
Print Assumptions C41_copy_same_diagram.
Print Assumptions C41_same_diagram_same_values.
Print Assumptions C41_copied_steps.
Print Assumptions C41_locks_survive.

Example C27_rebuilt_example : rebuild (fun v => v + 100) ex_w = Ok (relabel (fun v => v + 100) ex_w).
Proof. reflexivity. Qed.

Example C41_example :
  deepcopy (fun v => v + 10) 30 ex_w
  = Ok (mkWf [mkBlock [10; 11] [12]; mkBlock [13] [14]; mkBlock [15] [16]]
             [(12, 13); (30, 11); (30, 15)] (Some 14))
  /\ (forall u v, In u (block_variables ex_w) -> In v (block_variables ex_w) -> u + 10 = v + 10 -> u = v)
  /\ (forall v, In v (block_variables ex_w) -> v + 10 < 30 /\ ~ In (v + 10) (variables ex_w))
  /\ (forall v, In v (variables ex_w) -> v < 30).
Proof.
  split; [reflexivity|]. split; [intros; lia|]. split.
  - intros v I. simpl in I. split; [lia|]. simpl. lia.
  - intros v I. simpl in I. lia.
Qed.

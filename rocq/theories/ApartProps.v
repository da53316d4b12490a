(** Theorems about the elements that are not attached to the output. *)
From Coq Require Import Bool Arith List Lia Permutation.
From Verif Require Import Base BaseProofs ExecModel ExecSpec ExecStruct BranchModel BranchProofs ApartModel ApartSpec ApartProofs.
Import ListNotations.

(** What is listed, and in which order: blocks, then free variables. *)
Theorem C83_listed : forall w o,
  output w = Some o -> In o (variables w) ->
  exists keep, output_disconnected_elements w
    = Ok (filter keep (map NBlock (seq 0 (length (blocks w))) ++ map NVar (nonblock_variables w))) /\
  forall x, keep x = true <-> (x = NVar o \/ ~ leads w x (NVar o)).
Proof.
  intros w o O I. exists (fun x => negb (memb node_eqb x (ancestors (edges w) (NVar o)))). split.
  - unfold output_disconnected_elements. rewrite O.
    assert (M : mem o (variables w) = true) by (apply (memb_In _ Nat.eqb_eq); exact I). rewrite M.
    cbv zeta. rewrite filter_app. do 3 f_equal.
    unfold enumerate. generalize 0. induction (blocks w) as [|b bs IH]; intros k; [reflexivity|].
    cbn [length seq combine map fst]. f_equal. apply IH.
  - intros x. rewrite negb_true_iff, node_memb_false, ancestors_leads.
    destruct (node_eqb x (NVar o)) eqn:E.
    + apply node_eqb_iff in E. tauto.
    + assert (N : x <> NVar o). { intros ->. rewrite (proj2 (node_eqb_iff (NVar o) (NVar o)) eq_refl) in E. discriminate. }
      tauto.
Qed.
Print Assumptions C83_listed.

(** Without output, or with one that is no variable of the workflow, networkx raises. *)
Theorem C83_no_output : forall w,
  (output w = None \/ exists o, output w = Some o /\ ~ In o (variables w)) ->
  output_disconnected_elements w = Err networkx_error.
Proof.
  intros w [O|(o & O & N)]; unfold output_disconnected_elements; rewrite O; [reflexivity|].
  assert (M : mem o (variables w) = false) by (apply (memb_In_false _ Nat.eqb_eq); exact N).
  rewrite M. reflexivity.
Qed.
Print Assumptions C83_no_output.

(** On ordinary workflows: the blocks listed are those the output does not depend on, the
    free variables listed are those that feed no block the output depends on. *)
Theorem C83_needed : forall w o, well_formed w -> output w = Some o ->
  exists l, output_disconnected_elements w = Ok l /\
  (forall n, In (NBlock n) l <-> n < length (blocks w) /\ ~ needed w n) /\
  (forall v, In (NVar v) l <-> In v (nonblock_variables w) /\
     ~ exists n b t, needed w n /\ nth_error (blocks w) n = Some b /\ In t (b_in b) /\ In (v, t) (pipes w)).
Proof.
  intros w o WF O.
  destruct (wf_output w WF o O) as (b & Ib & Io).
  assert (Iv : In o (block_variables w)).
  { unfold block_variables. apply in_flat_map. exists b. split; [exact Ib | apply in_app_iff; auto]. }
  assert (I : In o (variables w)) by (apply (in_variables w WF); left; exact Iv).
  destruct (C83_listed w o O I) as (keep & E & K).
  exists (filter keep (map NBlock (seq 0 (length (blocks w))) ++ map NVar (nonblock_variables w))).
  split; [exact E|]. split.
  - intros n. rewrite filter_In, K, (leads_needed w WF o O), in_app_iff, !in_map_iff. split.
    + intros [A H]. destruct A as [(m & Q & J)|(m & Q & _)]; [|discriminate Q]. injection Q as ->. apply in_seq in J. split; [lia|].
      destruct H as [Q|H]; [discriminate Q | exact H].
    + intros [L H]. split; [left; exists n; split; [reflexivity|apply in_seq; lia] | right; exact H].
  - intros v. rewrite filter_In, K, in_app_iff, !in_map_iff.
    assert (D : In v (nonblock_variables w) -> ~ In v (block_variables w))  by (intros H; apply (nbv_In w WF) in H; tauto).
    assert (F : In v (nonblock_variables w) -> forall b, In b (blocks w) -> ~ In v (b_in b ++ b_out b)).
    { intros H c Ic J. apply (D H). unfold block_variables. apply in_flat_map. eauto. }
    split.
    + intros [A H]. destruct A as [(m & Q & _)|(m & Q & J)]; [discriminate Q|]. injection Q as ->. split; [exact J|].
      rewrite <- (leads_free w WF o O v (F J)). destruct H as [Q|H]; [injection Q as ->; exfalso; exact (D J Iv)|exact H].
    + intros [J H]. rewrite <- (leads_free w WF o O v (F J)) in H. split; [right; exists v; auto | auto].
Qed.
Print Assumptions C83_needed.

(** These are the blocks the workflow calls secondary. *)
Theorem C83_secondary : forall (V : Type) w (default : nat -> option V) lock_flag set_order o,
  well_formed w -> locks_sound default lock_flag -> (forall b l, Permutation (set_order b l) l) ->
  output w = Some o ->
  exists l, output_disconnected_elements w = Ok l /\
  forall n, n < length (blocks w) ->
    exists c, is_block_secondary w default lock_flag set_order n = Ok c /\ (c = true <-> In (NBlock n) l).
Proof.
  intros V w default lock_flag set_order o WF LS SO O.
  destruct (C83_needed w o WF O) as (l & E & B & _). exists l. split; [exact E|].
  intros n L. destruct (secondary_ok w WF default lock_flag LS set_order SO o O n) as (c & Ec & Hc).
  exists c. split; [exact Ec|]. rewrite Hc, B. tauto.
Qed.
Print Assumptions C83_secondary.

(** Three blocks: 0 feeds 1, which has the output; 2 is fed by 0 and nothing uses it.  The free
    variable 20 feeds 1, the free variable 21 feeds 2. *)
Definition apart_example : workflow :=
  mkWf [mkBlock [0] [1]; mkBlock [2; 3] [4]; mkBlock [5; 6] [7]]
       [(1, 2); (1, 5); (20, 3); (21, 6)] (Some 4).

Example C83_example : output_disconnected_elements apart_example = Ok [NBlock 2; NVar 21].
Proof. reflexivity. Qed.
Example C83_no_output_example : output_disconnected_elements (mkWf [mkBlock [0] [1]] [] None) = Err networkx_error.
Proof. reflexivity. Qed.

(** Termination and progress, for every workflow, well formed or not. *)
From Coq Require Import Bool Arith Lia List.
From Verif Require Import Base BaseProofs ExecModel ExecStruct ExecProofs.
Import ListNotations.

Definition noof {A} (r : res A) : Prop := r <> Err OutOfFuel.

Lemma noof_ok {A} (x : A) : noof (Ok x). Proof. discriminate. Qed.
Lemma noof_bind {A B} (r : res A) (f : A -> res B) :
  noof r -> (forall x, r = Ok x -> noof (f x)) -> noof (bind r f).
Proof. intros H1 H2. destruct r; cbn [bind]; [apply H2; auto|]. intros E. apply H1. congruence. Qed.
Lemma noof_opt {A} e (x : option A) : e <> OutOfFuel -> noof (of_option e x).
Proof. intros H. destruct x; simpl; [discriminate|]. intros E; inversion E; auto. Qed.
Lemma noof_mapM {A B} (f : A -> res B) l : (forall x, In x l -> noof (f x)) -> noof (mapM f l).
Proof.
  induction l as [|x l IH]; intros H; simpl; [apply noof_ok|].
  apply noof_bind; [apply H; simpl; auto|]. intros y _. apply noof_bind; [apply IH; intros; apply H; simpl; auto|].
  intros; apply noof_ok.
Qed.
Lemma noof_foldM {S A} (f : S -> A -> res S) l : (forall s x, In x l -> noof (f s x)) -> forall s, noof (foldM f l s).
Proof.
  induction l as [|x l IH]; intros H s; simpl; [apply noof_ok|].
  apply noof_bind; [apply H; simpl; auto|]. intros y _. apply IH. intros; apply H; simpl; auto.
Qed.

Lemma bind_ok {A B} (r : res A) (f : A -> res B) y : bind r f = Ok y -> exists x, r = Ok x /\ f x = Ok y.
Proof. destruct r; cbn [bind]; [eauto|discriminate]. Qed.

Lemma foldM_rel {S A} (R : S -> S -> Prop) (f : S -> A -> res S) :
  (forall s, R s s) -> (forall a b c, R a b -> R b c -> R a c) ->
  forall l, (forall x s s', In x l -> f s x = Ok s' -> R s s') ->
  forall s s', foldM f l s = Ok s' -> R s s'.
Proof.
  intros Hr Ht. induction l as [|x l IH]; intros H s s' E; simpl in E.
  - inversion E; auto.
  - apply bind_ok in E. destruct E as [s1 [E1 E2]]. eapply Ht; [eapply H; [simpl; auto|eauto]|].
    eapply IH; eauto. intros; eapply H; [right|]; eauto.
Qed.

Section T.
Context {V : Type}.
Variable w : workflow.
Variable default : nat -> option V.
Variable lock_flag : nat -> bool.
Variable type_ok : nat -> V -> bool.
Variable evaluate : nat -> list V -> res (list V).
Variable set_order : nat -> list nat -> list nat.

Notation state := (state V).
Notation runtime_blocks := (runtime_blocks w default lock_flag set_order).
Notation activable_blocks := (activable_blocks w default lock_flag set_order).
Notation activate_inputs := (activate_inputs w default lock_flag type_ok).
Notation evaluate_block := (evaluate_block w evaluate).
Notation block_evaluation := (block_evaluation w default lock_flag type_ok evaluate set_order).
Notation evaluate_next_block := (evaluate_next_block w default lock_flag type_ok evaluate set_order).
Notation run_loop := (run_loop w default lock_flag type_ok evaluate set_order).
Notation continue_run := (continue_run w default lock_flag type_ok evaluate set_order).

(** More variables activated, same blocks. *)
Definition up (s s' : state) : Prop :=
  (forall v, s_var s v = true -> s_var s' v = true) /\ s_blk s' = s_blk s /\ evaluated s' = evaluated s.
Lemma up_refl s : up s s. Proof. split; auto. Qed.
Lemma up_trans a b c : up a b -> up b c -> up a c.
Proof. intros [A [B C]] [A' [B' C']]. split; auto. split; congruence. Qed.

Lemma up_set_var v (s : state) : up s (set_var v s).
Proof. split; simpl; auto. intros u H. rewrite upd_true. auto. Qed.

Lemma activate_up f : forall v x s s', activate_variable w f v x s = Ok s' -> up s s'.
Proof.
  induction f as [|f IH]; intros v x s s' E; simpl in E; [discriminate|].
  apply bind_ok in E. destruct E as [s2 [E1 E2]]. inversion E2; subst; clear E2.
  apply up_trans with s2; [|apply up_set_var].
  apply up_trans with (if is_output w v then set_out x s else s).
  { destruct (is_output w v); split; simpl; auto. }
  eapply (foldM_rel up) in E1; eauto using up_refl, up_trans.
  intros ip a b _ Ea. apply IH in Ea. destruct Ea as [A [B C]]. split; simpl in *; auto.
Qed.

Lemma activate_input_up v x s s' : activate_input w type_ok v x s = Ok s' -> up s s'.
Proof.
  unfold activate_input. destruct (type_ok v x); [|discriminate]. destruct (input_index w v) as [i|]; [|discriminate].
  intros E. apply bind_ok in E. destruct E as [s1 [E1 E2]].
  apply up_trans with s1.
  - apply activate_up in E1. destruct E1 as [A [B C]]. split; simpl in *; auto.
  - eapply (foldM_rel up) in E2; eauto using up_refl, up_trans.
    intros ip a b _ Ea. apply activate_up in Ea. destruct Ea as [A [B C]]. split; simpl in *; auto.
Qed.

Lemma activate_inputs_up c s s' : activate_inputs c s = Ok s' -> up s s'.
Proof.
  unfold ExecModel.activate_inputs. intros E. eapply (foldM_rel up) in E; eauto using up_refl, up_trans.
  intros [i v] a b _ Ea. destruct (s_iv a i); [eapply activate_input_up; eauto|].
  apply bind_ok in Ea. destruct Ea as [l [_ Ea]]. destruct (default v); [eapply activate_input_up; eauto|].
  destruct c; [discriminate|]. inversion Ea; subst; apply up_refl.
Qed.

Lemma read_inputs_up ins : forall s s' xs, read_inputs w ins s = Ok (s', xs) -> up s s'.
Proof.
  induction ins as [|v ins IH]; intros s s' xs E; simpl in E.
  - inversion E; apply up_refl.
  - apply bind_ok in E. destruct E as [x [_ E]]. apply bind_ok in E. destruct E as [s1 [E1 E]].
    apply bind_ok in E. destruct E as [[s2 ys] [E2 E]]. inversion E; subst. simpl.
    eapply up_trans; [eapply (activate_up (fuel w)); exact E1|eauto].
Qed.

Lemma evaluate_block_up n s s' : evaluate_block n s = Ok s' ->
  (forall v, s_var s v = true -> s_var s' v = true) /\ s_blk s' = upd (s_blk s) n true
  /\ evaluated s' = evaluated s ++ [n].
Proof.
  unfold ExecModel.evaluate_block. destruct (nth_error (blocks w) n) as [b|]; [|discriminate]. intros E.
  apply bind_ok in E. destruct E as [[s1 xs] [E1 E]]. apply bind_ok in E. destruct E as [ys [_ E]].
  apply read_inputs_up in E1. unfold activate_block in E. apply bind_ok in E. destruct E as [s2 [E2 E]].
  inversion E; subst; clear E. simpl.
  assert (U : up (log_block n s1) s2).
  { eapply (foldM_rel up) in E2; eauto using up_refl, up_trans.
    intros ox a c _ Ea. eapply (activate_up (fuel w)); exact Ea. }
  destruct E1 as [A1 [B1 C1]]. destruct U as [A2 [B2 C2]]. simpl in *. split; auto. split; congruence.
Qed.

Lemma block_evaluation_up n s r s' : block_evaluation n s = Ok (r, s') ->
  (forall v, s_var s v = true -> s_var s' v = true)
  /\ s_blk s' = (if r then upd (s_blk s) n true else s_blk s)
  /\ evaluated s' = (if r then evaluated s ++ [n] else evaluated s).
Proof.
  unfold ExecModel.block_evaluation. destruct (n <? length (blocks w)); [|discriminate]. intros E.
  apply bind_ok in E. destruct E as [s1 [E1 E]]. apply bind_ok in E. destruct E as [l [_ E]].
  apply activate_inputs_up in E1. destruct E1 as [A [B C]].
  destruct (memb Nat.eqb n l).
  - apply bind_ok in E. destruct E as [s2 [E2 E]]. inversion E; subst. apply evaluate_block_up in E2.
    destruct E2 as [A2 [B2 C2]]. split; auto. split; congruence.
  - inversion E; subst. auto.
Qed.

(** What every action does to the done blocks. *)
Definition bup (s s' : state) : Prop :=
  (forall v, s_var s v = true -> s_var s' v = true) /\ (forall n, s_blk s n = true -> s_blk s' n = true).
Lemma bup_refl s : bup s s. Proof. split; auto. Qed.
Lemma bup_trans a b c : bup a b -> bup b c -> bup a c. Proof. intros [] []. split; auto. Qed.
Lemma up_bup s s' : up s s' -> bup s s'. Proof. intros [A [B C]]. split; auto. rewrite B; auto. Qed.
Lemma be_bup n s r s' : block_evaluation n s = Ok (r, s') -> bup s s'.
Proof.
  intros E. apply block_evaluation_up in E. destruct E as [A [B _]]. split; auto.
  intros m H. rewrite B. destruct r; auto. apply upd_true; auto.
Qed.

Lemma round_bup bs s s' :
  foldM (fun s b => let* r := block_evaluation b s in Ok (snd r)) bs s = Ok s' -> bup s s'.
Proof.
  intros E. eapply (foldM_rel bup) in E; eauto using bup_refl, bup_trans.
  intros b a c _ Ea. apply bind_ok in Ea. destruct Ea as [[r s1] [E1 E2]]. inversion E2; subst.
  eapply be_bup; eauto.
Qed.

Lemma run_loop_bup n : forall s s', run_loop n s = Ok s' -> bup s s'.
Proof.
  induction n as [|n IH]; intros s s' E; [discriminate|]. cbn [ExecModel.run_loop] in E.
  apply bind_ok in E. destruct E as [rt [_ E]]. apply bind_ok in E. destruct E as [l [_ E]].
  destruct (filter _ rt) as [|b bs].
  - inversion E; apply bup_refl.
  - apply bind_ok in E. destruct E as [s1 [E1 E2]]. apply round_bup in E1. eapply bup_trans; eauto.
Qed.

Lemma act_bup a s s' : act w default lock_flag type_ok evaluate set_order s a = Ok s' -> bup s s'.
Proof.
  destruct a as [i x|n| |]; simpl; intros E.
  - unfold add_input_value in E. apply bind_ok in E. destruct E as [v [_ E]].
    apply up_bup. eapply activate_input_up; eauto.
  - apply bind_ok in E. destruct E as [[r s1] [E1 E2]]. inversion E2; subst. eapply be_bup; eauto.
  - apply bind_ok in E. destruct E as [[r s1] [E1 E2]]. inversion E2; subst. simpl.
    unfold ExecModel.evaluate_next_block in E1. apply bind_ok in E1. destruct E1 as [s0 [E0 E1]].
    apply bind_ok in E1. destruct E1 as [l [_ E1]]. apply activate_inputs_up in E0. apply up_bup in E0.
    destruct l as [|b l]; [inversion E1; subst; auto|].
    apply bind_ok in E1. destruct E1 as [[r' s2] [E1 E3]]. inversion E3; subst. simpl.
    eapply bup_trans; [exact E0|eapply be_bup; eauto].
  - unfold ExecModel.continue_run in E. apply bind_ok in E. destruct E as [s1 [E1 E2]].
    apply activate_inputs_up in E1. eapply bup_trans; [apply up_bup; eauto|eapply run_loop_bup; eauto].
Qed.

(** ** progress *)
Lemma progress_act a s s' d t :
  act w default lock_flag type_ok evaluate set_order s a = Ok s' ->
  progress w default lock_flag set_order s = Ok (d, t) ->
  exists d', progress w default lock_flag set_order s' = Ok (d', t) /\ d <= d' /\ d' <= t.
Proof.
  intros E P. unfold progress in *. apply bind_ok in P. destruct P as [rt [R P]]. inversion P; subst; clear P.
  rewrite R. cbn [bind]. eexists. split; [reflexivity|]. split.
  - apply filter_le. intros x _. apply (act_bup a s s' E).
  - clear. induction rt as [|x l IH]; simpl; auto. destruct (s_blk s' x); simpl; lia.
Qed.

Lemma filter_full {A} (f : A -> bool) l : length (filter f l) = length l <-> forallb f l = true.
Proof.
  induction l as [|x l IH]; simpl; [tauto|].
  assert (L : length (filter f l) <= length l).
  { clear. induction l as [|x l IH]; simpl; auto. destruct (f x); simpl; lia. }
  destruct (f x); simpl; rewrite <- ?IH; split; try lia; discriminate.
Qed.

Lemma progress_completed s d t :
  progress w default lock_flag set_order s = Ok (d, t) ->
  exists c, completed w default lock_flag set_order s = Ok c /\ (c = true <-> d = t).
Proof.
  unfold progress, completed. intros P. apply bind_ok in P. destruct P as [rt [R P]]. inversion P; subst; clear P.
  rewrite R. cbn [bind]. eexists. split; [reflexivity|]. symmetry. apply filter_full.
Qed.

(** ** termination *)
Hypothesis EV : forall n xs, noof (evaluate n xs).

Lemma noof_locked v : noof (locked default lock_flag v).
Proof. unfold locked. destruct (lock_flag v); [|discriminate]. destruct (default v); discriminate. Qed.

Lemma noof_indices v : noof (variable_indices w v).
Proof. unfold variable_indices. destruct (find_port _ _ _); [discriminate|]. destruct (index_of _ _ _); discriminate. Qed.

Lemma noof_from v : noof (block_from_variable w v).
Proof. apply noof_bind; [apply noof_indices|]. intros [n|b o k] _; discriminate. Qed.

Lemma noof_wired ins : noof (wired w default lock_flag ins).
Proof.
  induction ins as [|v ins IH]; simpl; [discriminate|].
  destruct (upstream_variable w v) as [u|].
  - destruct (mem u _); apply noof_bind; auto using noof_locked. intros; discriminate.
  - apply noof_bind; auto using noof_locked.
Qed.

Lemma noof_upstream n : noof (upstream_blocks w default lock_flag set_order n).
Proof.
  unfold upstream_blocks. destruct (nth_error (blocks w) n); [|discriminate].
  apply noof_bind; [apply noof_wired|]. intros us _. apply noof_bind; [|intros; discriminate].
  apply noof_mapM. intros; apply noof_from.
Qed.

Lemma noof_levels n : forall ups acc, noof (levels w default lock_flag set_order n ups acc).
Proof.
  induction n as [|n IH]; intros [|u ups] acc; simpl; try discriminate.
  apply noof_bind; [|intros; apply IH].
  apply noof_bind; [apply noof_upstream|]. intros y _.
  apply noof_bind; [apply noof_mapM; intros; apply noof_upstream|intros; discriminate].
Qed.

Lemma noof_runtime : noof runtime_blocks.
Proof.
  unfold ExecModel.runtime_blocks. destruct (output w); [|discriminate].
  apply noof_bind; [apply noof_from|]. intros b _. apply noof_bind; [apply noof_upstream|]. intros; apply noof_levels.
Qed.

Lemma noof_activable s : noof (activable_blocks s).
Proof. apply noof_bind; [apply noof_runtime|intros; discriminate]. Qed.

Lemma noof_variable f : forall v (x : V) s, noof (activate_variable w f v x s).
Proof.
  induction f as [|f IH]; intros v x s; simpl; [discriminate|].
  apply noof_bind; [|intros; discriminate]. apply noof_foldM. intros; apply IH.
Qed.

Lemma noof_input v x s : noof (activate_input w type_ok v x s).
Proof.
  unfold activate_input. destruct (type_ok v x); [|discriminate]. destruct (input_index w v); [|discriminate].
  apply noof_bind; [apply noof_variable|]. intros y _. apply noof_foldM. intros; apply noof_variable.
Qed.

Lemma noof_inputs c s : noof (activate_inputs c s).
Proof.
  apply noof_foldM. intros a [i v] _. destruct (s_iv a i); [apply noof_input|].
  apply noof_bind; [apply noof_locked|]. intros _ _. destruct (default v); [apply noof_input|].
  destruct c; discriminate.
Qed.

Lemma noof_read ins : forall s : state, noof (read_inputs w ins s).
Proof.
  induction ins as [|v ins IH]; intros s; simpl; [discriminate|].
  apply noof_bind.
  - unfold read_input. destruct (variable_input_pipe w v); [apply noof_opt; discriminate|].
    apply noof_bind; [apply noof_opt; discriminate|intros; apply noof_opt; discriminate].
  - intros x _. apply noof_bind; [apply (noof_variable (fuel w))|]. intros s1 _. apply noof_bind; [apply IH|intros; discriminate].
Qed.

Lemma noof_block n s : noof (evaluate_block n s).
Proof.
  unfold ExecModel.evaluate_block. destruct (nth_error (blocks w) n); [|discriminate].
  apply noof_bind; [apply noof_read|]. intros r _. apply noof_bind; [apply EV|]. intros ys _.
  apply noof_bind; [|intros; discriminate]. apply noof_foldM. intros; apply (noof_variable (fuel w)).
Qed.

Lemma noof_be n s : noof (block_evaluation n s).
Proof.
  unfold ExecModel.block_evaluation. destruct (n <? length (blocks w)); [|discriminate].
  apply noof_bind; [apply noof_inputs|]. intros s1 _. apply noof_bind; [apply noof_activable|]. intros l _.
  destruct (memb Nat.eqb n l); [|discriminate]. apply noof_bind; [apply noof_block|intros; discriminate].
Qed.

Lemma activable_mono n s s' l l' rt :
  runtime_blocks = Ok rt -> In n rt ->
  activable_blocks s = Ok l -> In n l -> up s s' -> activable_blocks s' = Ok l' ->
  In n l' /\ s_blk s n = false.
Proof.
  intros R Irt E I [A [B _]] E'. unfold ExecModel.activable_blocks in *. rewrite R in E, E'. cbn [bind] in *.
  inversion E; subst; clear E. inversion E'; subst; clear E'. apply filter_In in I. destruct I as [I C].
  apply andb_true_iff in C. destruct C as [C D]. apply (memb_In _ nat_eqb_iff) in Irt. rewrite Irt in *.
  simpl in D. rewrite orb_false_r in D. split; [|apply negb_true_iff; auto].
  apply filter_In. split; auto. apply andb_true_iff. split.
  - unfold block_activable_by_inputs in *. destruct (nth_error (blocks w) n); auto.
    rewrite forallb_forall in *. auto.
  - rewrite B, D. reflexivity.
Qed.

Lemma noof_loop n : forall s, undone w s < n -> noof (run_loop n s).
Proof.
  induction n as [|n IH]; intros s U; [lia|]. cbn [ExecModel.run_loop].
  apply noof_bind; [apply noof_runtime|]. intros rt R.
  apply noof_bind; [apply noof_activable|]. intros l L.
  destruct (filter (fun b => memb Nat.eqb b l) rt) as [|b bs] eqn:F; [discriminate|].
  apply noof_bind.
  - apply noof_foldM. intros. apply noof_bind; [apply noof_be|intros; discriminate].
  - intros s1 E1. apply IH. cbn [foldM] in E1. apply bind_ok in E1. destruct E1 as [s0 [E0 E1]].
    apply bind_ok in E0. destruct E0 as [[r s0'] [E0 Es]]. inversion Es; subst s0'; clear Es.
    apply round_bup in E1. destruct E1 as [_ M].
    assert (Ib : In b (b :: bs)) by (simpl; auto). rewrite <- F in Ib. apply filter_In in Ib.
    destruct Ib as [Irt Il]. apply (memb_In _ nat_eqb_iff) in Il.
    assert (Lb : b < length (blocks w)).
    { unfold ExecModel.activable_blocks in L. rewrite R in L. cbn [bind] in L. inversion L; subst.
      apply filter_In in Il. destruct Il as [Il _]. apply in_seq in Il. lia. }
    assert (r = true /\ s_blk s b = false).
    { unfold ExecModel.block_evaluation in E0. assert (Q : (b <? length (blocks w)) = true) by (apply Nat.ltb_lt; auto).
      rewrite Q in E0. apply bind_ok in E0. destruct E0 as [sa [Ea E0]]. apply bind_ok in E0. destruct E0 as [l' [El' E0]].
      apply activate_inputs_up in Ea. destruct (activable_mono b s sa l l' rt R Irt L Il Ea El') as [I' Bs].
      split; auto. apply (memb_In _ nat_eqb_iff) in I'. rewrite I' in E0. apply bind_ok in E0.
      destruct E0 as [sb [_ E0]]. inversion E0; auto. }
    destruct H as [-> Bs]. apply block_evaluation_up in E0. destruct E0 as [_ [B _]].
    assert (undone w s1 < undone w s); [|lia].
    unfold undone. apply (filter_lt _ _ _ b).
    + intros x _. rewrite !negb_true_iff. intros Q. destruct (s_blk s x) eqn:Z; auto.
      rewrite <- Q. symmetry. apply M. rewrite B. apply upd_true; auto.
    + apply in_seq. lia.
    + rewrite M; auto. simpl snd. rewrite B. apply upd_true; auto.
    + rewrite Bs. reflexivity.
Qed.

Lemma continue_terminates s : continue_run s <> Err OutOfFuel.
Proof.
  apply noof_bind; [apply noof_inputs|]. intros s1 _. apply noof_loop.
  pose proof (undone_le w s1). lia.
Qed.

Lemma run_terminates user : run w default lock_flag type_ok evaluate set_order user <> Err OutOfFuel.
Proof.
  unfold run. apply noof_bind.
  - unfold input_values. apply noof_bind; [|intros; discriminate]. apply noof_mapM. intros ix _.
    apply noof_bind; [apply noof_opt; discriminate|]. intros v _. apply noof_bind; [apply noof_locked|intros; discriminate].
  - intros iv _. apply noof_bind; [apply noof_inputs|]. intros s0 _. apply noof_bind; [apply noof_inputs|]. intros s1 _.
    apply noof_bind; [apply continue_terminates|]. intros s2 _.
    apply noof_bind; [apply noof_bind; [apply noof_runtime|intros; discriminate]|]. intros [] _; discriminate.
Qed.

End T.

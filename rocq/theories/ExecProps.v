(** Properties C22 to C27: running a workflow. *)
From Coq Require Import Bool Arith Lia Permutation List.
From Verif Require Import Base BaseProofs ExecModel ExecSpec ExecStruct ExecRuntime ExecProofs ExecRun ExecTerm.
Import ListNotations.

Section Statements.
Context {V : Type}.
Variable w : workflow.
Variable default : nat -> option V.
Variable lock_flag : nat -> bool.
Variable type_ok : nat -> V -> bool.
Variable evaluate : nat -> list V -> res (list V).
Variable set_order : nat -> list nat -> list nat.

Notation given_by := (given_by w default lock_flag).
Notation run := (run w default lock_flag type_ok evaluate set_order).
Notation interactive := (interactive w default lock_flag type_ok evaluate set_order).
Notation completed := (completed w default lock_flag set_order).
Notation progress := (progress w default lock_flag set_order).
Notation continue_run := (continue_run w default lock_flag type_ok evaluate set_order).
Notation act := (act w default lock_flag type_ok evaluate set_order).

(** ** C22 *)

(** Locked inputs keep their default, other inputs take the user's value, and
    otherwise their default; the only failure is an index that designates no input. *)
Theorem C22_input_values_precedence :
  well_formed w -> locks_sound default lock_flag ->
  forall user, NoDup (map fst user) ->
  match input_values w default lock_flag user with
  | Ok iv => forall i v, nth_error (inputs w) i = Some v -> iv i = given_by user v
  | Err e => e = IndexError /\ exists i x, In (i, x) user /\ length (inputs w) <= i
  end.
Proof. intros WF LS user ND. exact (input_values_spec w WF default lock_flag LS user ND). Qed.

(** What a run computes does not depend on the values given to locked inputs. *)
Theorem C22_locked_inputs_ignored :
  well_formed w -> locks_sound default lock_flag ->
  forall user user', NoDup (map fst user) -> NoDup (map fst user') ->
  (forall i x v, In (i, x) user -> nth_error (inputs w) i = Some v -> lock_flag v = false -> In (i, x) user') ->
  (forall i x v, In (i, x) user' -> nth_error (inputs w) i = Some v -> lock_flag v = false -> In (i, x) user) ->
  forall iv iv', input_values w default lock_flag user = Ok iv -> input_values w default lock_flag user' = Ok iv' ->
  forall i, i < length (inputs w) -> iv i = iv' i.
Proof.
  intros WF LS user user' ND ND' H1 H2 iv iv' E E' i L.
  pose proof (input_values_spec w WF default lock_flag LS user ND) as A. rewrite E in A.
  pose proof (input_values_spec w WF default lock_flag LS user' ND') as A'. rewrite E' in A'.
  destruct (nth_error (inputs w) i) as [v|] eqn:N; [|apply nth_error_None in N; lia].
  rewrite (A i v N), (A' i v N). unfold ExecSpec.given_by. destruct (lock_flag v) eqn:Lv; auto.
  set (f := fun ix : nat * V => match nth_error (inputs w) (fst ix) with Some u => u =? v | None => false end).
  assert (Q : forall us us', NoDup (map fst us') ->
    (forall i x v, In (i, x) us -> nth_error (inputs w) i = Some v -> lock_flag v = false -> In (i, x) us') ->
    forall ix, find f us = Some ix -> find f us' = Some ix).
  { intros us us' Nd H [j x] F. apply find_some in F. destruct F as [I F]. unfold f in F. simpl in F.
    destruct (nth_error (inputs w) j) as [u|] eqn:Nj; [|discriminate]. apply Nat.eqb_eq in F. subst u.
    assert (I' := H j x v I Nj Lv). clear - I' Nd Nj WF.
    induction us' as [|[k y] us' IH]; [destruct I'|]. simpl in *. inversion Nd as [|? ? Nin Nd']; subst.
    destruct I' as [Q|I'].
    - inversion Q; subst. unfold f at 1. simpl. rewrite Nj, Nat.eqb_refl. reflexivity.
    - destruct (f (k, y)) eqn:Fk; [|apply IH; auto].
      exfalso. unfold f in Fk. simpl in Fk. destruct (nth_error (inputs w) k) as [u|] eqn:Nk; [|discriminate].
      apply Nat.eqb_eq in Fk. subst u. assert (k = j).
      { pose proof (inputs_nodup w WF) as NI. rewrite NoDup_nth_error in NI. apply NI; [|congruence].
        apply nth_error_Some; congruence. }
      subst k. apply Nin. apply in_map_iff. exists (j, x). auto. }
  destruct (find f user) as [ix|] eqn:F.
  - rewrite (Q user user' ND' H1 ix F). reflexivity.
  - destruct (find f user') as [ix|] eqn:F'; auto. rewrite (Q user' user ND H2 ix F') in F. discriminate.
Qed.

(** ** C23 *)

(** The output of a successful run is the value of the output variable in the data
    flow, and every value kept on a pipe is the value of its source. *)
Theorem C23_run_is_data_flow :
  well_formed w -> locks_sound default lock_flag -> (forall b l, Permutation (set_order b l) l) ->
  forall o, output w = Some o ->
  forall user s, NoDup (map fst user) -> run user = Ok s ->
  (forall x, s_out s = Some x <-> has_value w (given_by user) evaluate o x)
  /\ (forall p src tgt x, nth_error (pipes w) p = Some (src, tgt) ->
        s_pipe s p = Some x -> has_value w (given_by user) evaluate src x)
  /\ (forall p src tgt n b, nth_error (pipes w) p = Some (src, tgt) -> needed w n ->
        nth_error (blocks w) n = Some b -> In src (b_out b) ->
        forall x, s_pipe s p = Some x <-> has_value w (given_by user) evaluate src x).
Proof.
  intros WF LS SO o OUT user s ND E. split; [|split].
  - exact (run_output w WF default lock_flag LS type_ok evaluate set_order SO o OUT user s ND E).
  - intros p q t x N. exact (run_pipes w WF default lock_flag LS type_ok evaluate set_order SO o OUT user s ND E p q t N x).
  - exact (run_needed_pipes w WF default lock_flag LS type_ok evaluate set_order SO o OUT user s ND E).
Qed.

(** The data flow gives one value at most to each variable. *)
Theorem C23_data_flow_deterministic :
  well_formed w ->
  forall given v x y, has_value w given evaluate v x -> has_value w given evaluate v y -> x = y.
Proof. intros WF given v x y H H'. exact (hv_functional w WF evaluate given v x H y H'). Qed.

(** An acyclic workflow whose inputs all have a value of the right type and whose
    needed blocks evaluate without error runs to its output. *)
Theorem C23_run_succeeds :
  well_formed w -> locks_sound default lock_flag -> (forall b l, Permutation (set_order b l) l) ->
  forall o, output w = Some o -> acyclic w ->
  forall user, NoDup (map fst user) ->
  (forall i x, In (i, x) user -> i < length (inputs w)) ->
  (forall v, is_input w v -> exists x, given_by user v = Some x /\ type_ok v x = true) ->
  (forall n b xs, needed w n -> nth_error (blocks w) n = Some b ->
     have_values w (given_by user) evaluate (b_in b) xs ->
     exists ys, evaluate n xs = Ok ys /\ length (b_out b) <= length ys) ->
  exists s x, run user = Ok s /\ s_out s = Some x /\ has_value w (given_by user) evaluate o x.
Proof.
  intros WF LS SO o OUT AC user ND Hix Hin Hev.
  apply (run_completes w WF default lock_flag LS type_ok evaluate set_order SO o OUT user ND Hix); auto.
  intros v I. apply Hin. apply (inputs_In w WF). exact I.
Qed.

(** Every failure of a run has one of these causes. *)
Theorem C23_failures :
  well_formed w -> locks_sound default lock_flag -> (forall b l, Permutation (set_order b l) l) ->
  forall o, output w = Some o ->
  forall user e, NoDup (map fst user) -> run user = Err e ->
     (e = IndexError /\ exists i x, In (i, x) user /\ length (inputs w) <= i)
  \/ (e = TypeError /\ exists v x, is_input w v /\ given_by user v = Some x /\ type_ok v x = false)
  \/ (exists n b xs, needed w n /\ nth_error (blocks w) n = Some b
        /\ have_values w (given_by user) evaluate (b_in b) xs /\ evaluate n xs = Err e)
  \/ (e = ValueError /\ exists v, is_input w v /\ given_by user v = None)
  \/ (e = ValueError /\ (acyclic w ->
        exists n b xs ys, needed w n /\ nth_error (blocks w) n = Some b
          /\ have_values w (given_by user) evaluate (b_in b) xs /\ evaluate n xs = Ok ys
          /\ length ys < length (b_out b))).
Proof.
  intros WF LS SO o OUT user e ND E.
  pose proof (run_good w WF default lock_flag LS type_ok evaluate set_order SO o OUT user ND) as R.
  cbv zeta in R. rewrite E in R.
  destruct R as [A|[[[-> [v [x [I [Gx T]]]]]|[n [b [xs [Nn [Nb [HX Ev]]]]]]]|[[-> [v [I Gv]]]|[-> [s [n [I [Nn [Bn [Iv St]]]]]]]]]].
  - left. exact A.
  - right. left. split; auto. exists v, x. split; auto. apply (inputs_In w WF). exact I.
  - right. right. left. exists n, b, xs. auto.
  - right. right. right. left. split; auto. exists v. split; auto. apply (inputs_In w WF). exact I.
  - right. right. right. right. split; auto. intros AC.
    exact (stuck_short w WF evaluate (given_by user) s (i_good _ _ _ _ _ I) Iv St AC n Nn Bn).
Qed.

(** ** C24 *)

(** A run evaluates the blocks the output depends on, each exactly once, no other
    block, and a block only after all the blocks that feed it. *)
Theorem C24_needed_blocks_once_in_order :
  well_formed w -> locks_sound default lock_flag -> (forall b l, Permutation (set_order b l) l) ->
  forall o, output w = Some o ->
  forall user s, NoDup (map fst user) -> run user = Ok s ->
  NoDup (evaluated s)
  /\ (forall n, In n (evaluated s) <-> needed w n)
  /\ (forall before n after, evaluated s = before ++ n :: after -> forall m, feeds w m n -> In m before).
Proof.
  intros WF LS SO o OUT user s ND E.
  exact (run_evaluated w WF default lock_flag LS type_ok evaluate set_order SO o OUT user s ND E).
Qed.

(** ** C25 *)

(** Whatever the workflow and the state, [continue_run] and [run] stop: the loop of
    continue_run makes no more rounds than there are blocks, plus two. *)
Theorem C25_terminates :
  (forall n xs, evaluate n xs <> Err OutOfFuel) ->
  (forall s, continue_run s <> Err OutOfFuel) /\ (forall user, run user <> Err OutOfFuel).
Proof.
  intros EV. split.
  - exact (continue_terminates w default lock_flag type_ok evaluate set_order EV).
  - exact (run_terminates w default lock_flag type_ok evaluate set_order EV).
Qed.

(** Progress never decreases, stays between 0 and the number of blocks to run, and
    reaches it exactly when the state is complete. *)
Theorem C25_progress :
  forall a s s' d t, act s a = Ok s' -> progress s = Ok (d, t) ->
  exists d', progress s' = Ok (d', t) /\ d <= d' /\ d' <= t
    /\ exists c, completed s' = Ok c /\ (c = true <-> d' = t).
Proof.
  intros a s s' d t E P.
  destruct (progress_act w default lock_flag type_ok evaluate set_order a s s' d t E P) as [d' [P' [L1 L2]]].
  exists d'. split; auto. split; auto. split; auto.
  exact (progress_completed w default lock_flag set_order s' d' t P').
Qed.

(** Complete means that every block the output depends on is evaluated. *)
Theorem C25_completed :
  well_formed w -> locks_sound default lock_flag -> (forall b l, Permutation (set_order b l) l) ->
  forall o, output w = Some o ->
  forall s, exists c, completed s = Ok c /\ (c = true <-> forall n, needed w n -> s_blk s n = true).
Proof.
  intros WF LS SO o OUT s.
  exact (completed_ok w WF default lock_flag LS type_ok evaluate set_order SO (fun _ => None) o OUT s).
Qed.

(** ** C26 *)

(** A session only ever given the values of [given] (at its start, through defaults
    or later) and complete has the output of the data flow. *)
Definition session_gives (given : nat -> option V) (iv : nat -> option V) (acts : list (action V)) : Prop :=
  (forall i v x, nth_error (inputs w) i = Some v -> iv i = Some x -> given v = Some x)
  /\ (forall i v d, nth_error (inputs w) i = Some v -> iv i = None -> default v = Some d -> given v = Some d)
  /\ (forall i v x, nth_error (inputs w) i = Some v -> In (AddInput i x) acts -> given v = Some x).

Lemma session_agrees given iv acts :
  session_gives given iv acts -> starts_with w default given iv /\ forall a, In a acts -> agrees w given a.
Proof.
  intros [H1 [H2 H3]]. split; [split; auto|]. intros [i x|n| |] I; simpl; auto. intros v N. eapply H3; eauto.
Qed.

Theorem C26_session_is_data_flow :
  well_formed w -> locks_sound default lock_flag -> (forall b l, Permutation (set_order b l) l) ->
  forall o, output w = Some o ->
  forall given iv acts s, session_gives given iv acts ->
  interactive iv acts = Ok s ->
  (forall p src tgt x, nth_error (pipes w) p = Some (src, tgt) ->
      s_pipe s p = Some x -> has_value w given evaluate src x)
  /\ (forall x, s_out s = Some x -> has_value w given evaluate o x)
  /\ (forall before n after, evaluated s = before ++ n :: after -> forall m, feeds w m n -> In m before)
  /\ (completed s = Ok true -> forall x, s_out s = Some x <-> has_value w given evaluate o x).
Proof.
  intros WF LS SO o OUT given iv acts s SG E. destruct (session_agrees given iv acts SG) as [ST AG].
  assert (I := session_inv w WF default lock_flag LS type_ok evaluate set_order SO o OUT given iv acts s ST AG E).
  assert (Gd := i_good _ _ _ _ _ I). split; [|split; [|split]].
  - intros p q t x N X. exact (g_pipe _ _ _ _ Gd p q t x N X).
  - intros x X. destruct (g_out _ _ _ _ Gd x X) as [o' [O H]]. assert (o' = o) by congruence. subst; auto.
  - exact (g_order _ _ _ _ Gd).
  - intros C. exact (proj1 (session_result w WF default lock_flag LS type_ok evaluate set_order SO o OUT given iv acts s ST AG E C)).
Qed.

(** Whatever the order of the actions, a complete session ends with the output and
    the pipe values of the one-shot run on the same values. *)
Theorem C26_session_equals_run :
  well_formed w -> locks_sound default lock_flag -> (forall b l, Permutation (set_order b l) l) ->
  forall o, output w = Some o ->
  forall user iv acts s1 s2, NoDup (map fst user) -> run user = Ok s1 ->
  session_gives (given_by user) iv acts ->
  interactive iv acts = Ok s2 -> completed s2 = Ok true ->
  s_out s2 = s_out s1
  /\ (forall p src tgt n b, nth_error (pipes w) p = Some (src, tgt) -> needed w n ->
        nth_error (blocks w) n = Some b -> In src (b_out b) -> s_pipe s2 p = s_pipe s1 p).
Proof.
  intros WF LS SO o OUT user iv acts s1 s2 ND R SG E C. destruct (session_agrees _ iv acts SG) as [ST AG].
  exact (session_run w WF default lock_flag LS type_ok evaluate set_order SO o OUT user iv acts s1 s2 ND R ST AG E C).
Qed.

(** ** C27 *)
Theorem C27_addresses_round_trip :
  well_formed w ->
  (forall v, In v (variables w) -> exists a, variable_indices w v = Ok a /\ variable_from_index w a = Ok v)
  /\ (forall a v, variable_from_index w a = Ok v -> variable_indices w v = Ok a).
Proof.
  intros WF. split.
  - exact (indices_exists w WF).
  - exact (from_index_indices w WF).
Qed.

Theorem C27_addresses_distinct :
  well_formed w ->
  forall u v a, In u (variables w) -> In v (variables w) ->
  variable_indices w u = Ok a -> variable_indices w v = Ok a -> u = v.
Proof.
  intros WF u v a Iu Iv Eu Ev.
  destruct (indices_exists w WF u Iu) as [a' [Eu' Fu]]. destruct (indices_exists w WF v Iv) as [b' [Ev' Fv]].
  congruence.
Qed.

Theorem C27_pipe_found_by_its_addresses :
  well_formed w ->
  forall p src tgt, nth_error (pipes w) p = Some (src, tgt) ->
  exists a b, variable_indices w src = Ok a /\ variable_indices w tgt = Ok b
    /\ pipe_from_variable_indices w a b = Ok p.
Proof.
  intros WF p s t N. destruct (pipe_end_in w WF s t (nth_error_In _ _ N)) as [Is It].
  destruct (indices_exists w WF s Is) as [a [Ea _]]. destruct (indices_exists w WF t It) as [b [Eb _]].
  exists a, b. split; auto. split; auto. eapply pipe_lookup; eauto.
Qed.
End Statements.

Print Assumptions C22_input_values_precedence.
Print Assumptions C22_locked_inputs_ignored.
Print Assumptions C23_run_is_data_flow.
Print Assumptions C23_data_flow_deterministic.
Print Assumptions C23_run_succeeds.
Print Assumptions C23_failures.
Print Assumptions C24_needed_blocks_once_in_order.
Print Assumptions C25_terminates.
Print Assumptions C25_progress.
Print Assumptions C25_completed.
Print Assumptions C26_session_is_data_flow.
Print Assumptions C26_session_equals_run.
Print Assumptions C27_addresses_round_trip.
Print Assumptions C27_addresses_distinct.
Print Assumptions C27_pipe_found_by_its_addresses.

(** ** A concrete workflow

    Block 0 adds variables 0 and 1 into 2; block 1 maps 3 to 4, the output; block 2,
    which the output does not need, maps 5 to 6.  Free variable 9 feeds 1 and 5. *)
Definition ex_w : workflow :=
  mkWf [mkBlock [0; 1] [2]; mkBlock [3] [4]; mkBlock [5] [6]]
       [(2, 3); (9, 1); (9, 5)] (Some 4).
Definition ex_eval (n : nat) (xs : list nat) : res (list nat) := Ok [n + list_sum xs].
Definition ex_default (v : nat) : option nat := if Nat.eqb v 0 then Some 7 else None.
Definition ex_lock (v : nat) : bool := Nat.eqb v 0.
Definition ex_order (b : nat) (l : list nat) : list nat := l.
Definition ex_type (v x : nat) : bool := Nat.ltb x 100.

Ltac in_cases H := simpl in H; repeat (destruct H as [H|H]; [try (inversion H; subst; clear H)|]); try contradiction.

Lemma ex_wf : well_formed ex_w.
Proof.
  constructor; simpl.
  - repeat constructor; simpl; intuition discriminate.
  - repeat constructor; simpl; intuition discriminate.
  - intros s t H. in_cases H; [exists (mkBlock [3] [4])|exists (mkBlock [0; 1] [2])|exists (mkBlock [5] [6])]; simpl; auto.
  - intros s t b H I. in_cases H; in_cases I; simpl; intuition discriminate.
  - intros o H. inversion H; subst. exists (mkBlock [3] [4]). simpl; auto.
Qed.

Lemma ex_locks : locks_sound ex_default ex_lock.
Proof. intros v. unfold ex_lock, ex_default. destruct (Nat.eqb v 0); congruence. Qed.

Lemma ex_orders : forall b l, Permutation (ex_order b l) l.
Proof. intros; apply Permutation_refl. Qed.

(** The hypotheses of C22 to C26 hold together: input 0 is locked, so the 50 given
    to it is ignored, and block 2 does not run. *)
Example C23_example :
  well_formed ex_w /\ locks_sound ex_default ex_lock /\ output ex_w = Some 4
  /\ inputs ex_w = [0; 9]
  /\ exists s, ExecModel.run ex_w ex_default ex_lock ex_type ex_eval ex_order [(0, 50); (1, 5)] = Ok s
       /\ s_out s = Some 13 /\ evaluated s = [0; 1].
Proof.
  split; [apply ex_wf|]. split; [apply ex_locks|]. split; [reflexivity|]. split; [reflexivity|].
  eexists. split; [vm_compute; reflexivity|]. split; reflexivity.
Qed.

(** The hypotheses of C23_run_succeeds hold for it. *)
Example C23_succeeds_example :
  acyclic ex_w
  /\ (forall v, is_input ex_w v -> exists x, given_by ex_w ex_default ex_lock [(1, 5)] v = Some x /\ ex_type v x = true)
  /\ (forall n b xs, needed ex_w n -> nth_error (blocks ex_w) n = Some b ->
     have_values ex_w (given_by ex_w ex_default ex_lock [(1, 5)]) ex_eval (b_in b) xs ->
     exists ys, ex_eval n xs = Ok ys /\ length (b_out b) <= length ys).
Proof.
  split; [|split].
  - exists (fun n => n). intros m n [bm [bn [s [t [Nm [Nn [Js [Jt P]]]]]]]] _.
    destruct m as [|[|[|m]]]; simpl in Nm; try (destruct m; discriminate); inversion Nm; subst; simpl in Js;
    destruct n as [|[|[|n]]]; simpl in Nn; try (destruct n; discriminate); inversion Nn; subst; simpl in Jt;
    simpl in P; intuition (subst; try lia; discriminate || congruence).
  - intros v I. apply (inputs_In ex_w ex_wf) in I. in_cases I; subst; eexists; split; reflexivity.
  - intros n b xs _ Nb _. destruct n as [|[|[|n]]]; simpl in Nb; try (destruct n; discriminate);
    inversion Nb; subst; eexists; split; simpl; try reflexivity; auto.
Qed.

Example C26_example :
  session_gives ex_w ex_default (given_by ex_w ex_default ex_lock [(1, 5)])
     (fun _ => None) [EvalNext; AddInput 1 5; EvalBlock 2; EvalBlock 0; Continue]
  /\ exists s, interactive ex_w ex_default ex_lock ex_type ex_eval ex_order (fun _ => None)
         [EvalNext; AddInput 1 5; EvalBlock 2; EvalBlock 0; Continue] = Ok s
       /\ completed ex_w ex_default ex_lock ex_order s = Ok true
       /\ s_out s = Some 13 /\ evaluated s = [2; 0; 1].
Proof.
  split.
  - split; [|split].
    + intros i v x _ H. discriminate.
    + intros i v d H _ D. unfold ex_default in D. destruct (Nat.eqb_spec v 0); [|discriminate]. subst.
      inversion D; reflexivity.
    + intros i v x H I. in_cases I; try discriminate. simpl in H. inversion H; subst. reflexivity.
  - eexists. split; [vm_compute; reflexivity|]. split; [reflexivity|]. split; reflexivity.
Qed.

Example C27_example :
  variable_indices ex_w 9 = Ok (ANbv 0) /\ variable_indices ex_w 5 = Ok (APort 2 false 0)
  /\ pipe_from_variable_indices ex_w (ANbv 0) (APort 2 false 0) = Ok 2.
Proof. repeat split. Qed.

(** ** Violations *)

(** Step by step, a locked input accepts a new value (input 0 is locked on 7). *)
Theorem C22_step_by_step_lock_refuted :
  exists (w : workflow) (s : state nat),
    well_formed w /\ locks_sound ex_default ex_lock
    /\ interactive w ex_default ex_lock ex_type ex_eval ex_order (fun _ => None) [AddInput 0 50] = Ok s
    /\ nth_error (inputs w) 0 = Some 0 /\ ex_lock 0 = true
    /\ s_iv s 0 = Some 50.
Proof.
  exists ex_w. eexists. split; [apply ex_wf|]. split; [apply ex_locks|].
  split; [vm_compute; reflexivity|]. repeat split.
Qed.

(** [evaluate_next_block] can starve: with a secondary block first in the list, no
    number of calls reaches the block of the output. *)
Definition starve_w : workflow := mkWf [mkBlock [0] [1]; mkBlock [2] [3]] [] (Some 3).
Definition no_default (v : nat) : option nat := None.
Definition no_lock (v : nat) : bool := false.

Lemma starve_step (s : state nat) :
  s_iv s 0 = Some 1 -> s_iv s 1 = Some 2 -> s_blk s 1 = false -> ~ In 1 (evaluated s) ->
  exists s', ExecModel.act starve_w no_default no_lock ex_type ex_eval ex_order s EvalNext = Ok s'
   /\ s_iv s' 0 = Some 1 /\ s_iv s' 1 = Some 2 /\ s_blk s' 1 = false /\ ~ In 1 (evaluated s').
Proof.
  intros A B C D. simpl. unfold evaluate_next_block.
  assert (AI : forall s : state nat, s_iv s 0 = Some 1 -> s_iv s 1 = Some 2 ->
    activate_inputs starve_w no_default no_lock ex_type false s
    = Ok (set_var 2 (set_iv 1 2 (set_var 0 (set_iv 0 1 s))))).
  { intros s0 A0 B0. unfold activate_inputs. change (enumerate (inputs starve_w)) with [(0, 0); (1, 2)].
    cbn [foldM]. rewrite A0. cbn. rewrite B0. reflexivity. }
  rewrite (AI s A B). cbn [bind].
  set (s1 := set_var 2 (set_iv 1 2 (set_var 0 (set_iv 0 1 s)))).
  assert (A1 : s_iv s1 0 = Some 1) by reflexivity. assert (B1 : s_iv s1 1 = Some 2) by reflexivity.
  assert (AC : forall s : state nat, s_var s 0 = true -> exists l,
    activable_blocks starve_w no_default no_lock ex_order s = Ok (0 :: l)).
  { intros s0 H. unfold activable_blocks. change (runtime_blocks starve_w no_default no_lock ex_order) with (Ok [1]).
    cbn. rewrite H. simpl. rewrite orb_true_r. simpl. eexists; reflexivity. }
  destruct (AC s1 eq_refl) as [l El]. rewrite El. cbn [bind].
  unfold block_evaluation. cbn [blocks starve_w length Nat.ltb Nat.leb].
  rewrite (AI s1 A1 B1). cbn [bind].
  set (s2 := set_var 2 (set_iv 1 2 (set_var 0 (set_iv 0 1 s1)))).
  destruct (AC s2 eq_refl) as [l' El']. rewrite El'. cbn [bind memb existsb Nat.eqb orb].
  eexists. split; [cbn; reflexivity|]. cbn. split; [reflexivity|]. split; [reflexivity|]. split.
  - exact C.
  - intros I. apply in_app_or in I. destruct I as [I|[I|[]]]; [auto|discriminate].
Qed.

Theorem C25_evaluate_next_starves_refuted :
  well_formed starve_w /\ needed starve_w 1 /\
  forall n, exists s,
    interactive starve_w no_default no_lock ex_type ex_eval ex_order
      (fun i => nth_error [1; 2] i) (repeat EvalNext n) = Ok s
    /\ ~ In 1 (evaluated s) /\ s_blk s 1 = false.
Proof.
  split; [|split].
  - constructor; simpl; try tauto.
    + repeat constructor; simpl; intuition discriminate.
    + constructor.
    + intros o H. inversion H; subst. exists (mkBlock [2] [3]). simpl; auto.
  - apply needed_output with (o := 3) (b := mkBlock [2] [3]); simpl; auto.
  - intros n. unfold interactive.
    assert (S0 : exists s0, start_run starve_w no_default no_lock ex_type (fun i => nth_error [1; 2] i) = Ok s0
      /\ s_iv s0 0 = Some 1 /\ s_iv s0 1 = Some 2 /\ s_blk s0 1 = false /\ ~ In 1 (evaluated s0)).
    { eexists. split; [cbn; reflexivity|]. repeat split. intros []. }
    destruct S0 as [s0 [-> H]]. cbn [bind]. revert s0 H.
    induction n as [|n IH]; intros s0 [A [B [C D]]].
    + exists s0. simpl. auto.
    + destruct (starve_step s0 A B C D) as [s1 [E H]]. cbn [repeat foldM]. rewrite E. cbn [bind]. apply IH. exact H.
Qed.

(** After an input changes, a block already evaluated is not evaluated again: the
    completed state keeps the output of the old value. *)
Definition one_w : workflow := mkWf [mkBlock [0] [1]] [] (Some 1).
Theorem C26_changed_input_refuted :
  exists s1 s2,
    interactive one_w no_default no_lock ex_type ex_eval ex_order (fun _ => None)
      [AddInput 0 1; Continue; AddInput 0 5; Continue] = Ok s2
    /\ completed one_w no_default no_lock ex_order s2 = Ok true
    /\ s_iv s2 0 = Some 5
    /\ ExecModel.run one_w no_default no_lock ex_type ex_eval ex_order [(0, 5)] = Ok s1
    /\ s_out s1 = Some 5 /\ s_out s2 = Some 1.
Proof.
  eexists. eexists. split; [vm_compute; reflexivity|]. split; [reflexivity|]. split; [reflexivity|].
  split; [vm_compute; reflexivity|]. split; reflexivity.
Qed.

(** Outside well-formed workflows: a block output that reaches the output through a
    free variable makes its block unneeded, and the run fails. *)
Theorem C24_free_variable_in_between_refuted :
  let w := mkWf [mkBlock [0] [1]; mkBlock [2] [3]] [(1, 9); (9, 2)] (Some 3) in
  runtime_blocks w no_default no_lock ex_order = Ok [1]
  /\ ExecModel.run w no_default no_lock ex_type ex_eval ex_order [(0, 1)] = Err ValueError.
Proof. split; vm_compute; reflexivity. Qed.

(** Outside well-formed workflows: two free variables in a row share their address. *)
Theorem C27_shared_address_refuted :
  let w := mkWf [mkBlock [0] [1]] [(5, 6); (6, 0)] (Some 1) in
  In 5 (variables w) /\ In 6 (variables w) /\ variable_indices w 5 = variable_indices w 6
  /\ variable_indices w 5 = Ok (ANbv 0) /\ variable_from_index w (ANbv 1) = Ok 6.
Proof. simpl. intuition. Qed.

(** Without an output, nothing runs: TypeError. *)
Theorem C25_no_output_refuted :
  forall (blocks : list block) (pipes : list (nat * nat)) user,
  let w := mkWf blocks pipes None in
  forall s, ExecModel.run w no_default no_lock ex_type ex_eval ex_order user <> Ok s.
Proof.
  intros bs ps user w s E. unfold ExecModel.run in E.
  apply bind_ok in E. destruct E as [iv [_ E]]. apply bind_ok in E. destruct E as [s0 [_ E]].
  apply bind_ok in E. destruct E as [s1 [_ E]]. apply bind_ok in E. destruct E as [s2 [_ E]].
  unfold completed, runtime_blocks in E. simpl in E. discriminate.
Qed.

Print Assumptions C22_step_by_step_lock_refuted.
Print Assumptions C24_free_variable_in_between_refuted.
Print Assumptions C25_evaluate_next_starves_refuted.
Print Assumptions C25_no_output_refuted.
Print Assumptions C26_changed_input_refuted.
Print Assumptions C27_shared_address_refuted.

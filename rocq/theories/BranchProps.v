(** Properties C46 and C47: display and export of blocks, display of a form step. *)
From Coq Require Import String Bool Arith Lia Permutation List.
From Verif Require Import Base BaseProofs ExecModel ExecSpec ExecStruct ExecRuntime ExecProofs ExecRun ExecProps
  BranchModel BranchSpec BranchProofs BranchEval BranchShow BranchRun.
Import ListNotations.

Section Statements.
Context {V : Type}.
Variable w : workflow.
Variable default : nat -> option V.
Variable lock_flag : nat -> bool.
Variable type_ok : nat -> V -> bool.
Variable evaluate : nat -> list V -> res (list V).
Variable set_order : nat -> list nat -> list nat.
Variables displays exports : list nat.
Variable selector : nat -> string.

Notation given_by := (given_by w default lock_flag).
Notation run := (run w default lock_flag type_ok evaluate set_order).
Notation completed := (completed w default lock_flag set_order).
Notation secondary_branch_blocks := (secondary_branch_blocks w default lock_flag set_order).
Notation block_display := (block_display w default lock_flag type_ok evaluate set_order displays selector).
Notation export := (export w default lock_flag type_ok evaluate set_order exports selector).
Notation serve := (serve w default lock_flag type_ok evaluate set_order displays exports selector).
Notation session := (session w default lock_flag type_ok evaluate set_order displays exports selector).
Notation to_workflow_run := (to_workflow_run w default lock_flag type_ok set_order displays exports).
Notation upstream_inputs := (upstream_inputs w default lock_flag set_order).
Notation step_display := (step_display w default lock_flag type_ok evaluate set_order).

(** ** C46 *)

(** The branch of a block: the block, at the end, and the blocks the output does not
    need from which it is reached without going through a needed one.  The memorized
    pipes are those entering the branch from a needed block. *)
Theorem C46_branch :
  well_formed w -> locks_sound default lock_flag -> (forall b l, Permutation (set_order b l) l) ->
  forall o, output w = Some o ->
  forall b, b < List.length (blocks w) -> exists br ps, secondary_branch_blocks b = Ok (br, ps)
  /\ (forall x, In x br <-> leads_to w b x) /\ (exists l, br = l ++ [b])
  /\ (forall p, In p ps <-> exists m n, needed w m /\ leads_to w b n /\ pipe_joins w p m n).
Proof. intros WF LS SO o OUT b L. exact (secondary_branch_ok w WF default lock_flag LS set_order SO o OUT b L). Qed.

(** Values given during a session with displays. *)
Definition requests_give (given : nat -> option V) (iv : nat -> option V) (qs : list (request (V := V))) : Prop :=
  (forall i v x, nth_error (inputs w) i = Some v -> iv i = Some x -> given v = Some x)
  /\ (forall i v d, nth_error (inputs w) i = Some v -> iv i = None -> default v = Some d -> given v = Some d)
  /\ (forall i v x, nth_error (inputs w) i = Some v -> In (Do (AddInput i x)) qs -> given v = Some x).

Lemma requests_agree given iv qs : requests_give given iv qs ->
  starts_with w default given iv /\ forall q, In q qs -> request_agrees w given q.
Proof.
  intros [H1 [H2 H3]]. split; [split; auto|]. intros [[i x|n| |]|b|b] I; simpl; auto. intros v N. eapply H3; eauto.
Qed.

(** Whatever the order of inputs, evaluations, displays and exports, what is shown for
    a block is the first of its results in the data flow; displays do not disturb the
    execution: pipes hold data flow values, and the output, once complete, is right. *)
Theorem C46_shown_is_data_flow :
  well_formed w -> locks_sound default lock_flag -> (forall b l, Permutation (set_order b l) l) ->
  forall o, output w = Some o ->
  (forall c, In c displays -> c < List.length (blocks w)) -> (forall c, In c exports -> c < List.length (blocks w)) ->
  forall given iv qs s shown, requests_give given iv qs -> session iv qs = Ok (s, shown) ->
  (forall b y, In (b, y) shown -> exists ys, block_result w given evaluate b ys /\ nth_error ys 0 = Some y)
  /\ (forall p src tgt x, nth_error (pipes w) p = Some (src, tgt) ->
      s_pipe s p = Some x -> has_value w given evaluate src x)
  /\ (completed s = Ok true -> forall x, s_out s = Some x <-> has_value w given evaluate o x).
Proof.
  intros WF LS SO o OUT VD VE given iv qs s shown RG E. destruct (requests_agree given iv qs RG) as [ST AG].
  destruct (session_good w WF default lock_flag LS type_ok evaluate set_order SO o OUT selector given displays exports VD VE
              iv qs (s, shown) ST AG E) as [I Sh]. simpl in I, Sh.
  assert (Gd := i_good _ _ _ _ _ I). split; [exact Sh|]. split.
  - intros p q t x N X. exact (g_pipe _ _ _ _ Gd p q t x N X).
  - intros C. destruct (completed_ok w WF default lock_flag LS type_ok evaluate set_order SO given o OUT s) as [c [Ec Cc]].
    rewrite C in Ec. inversion Ec; subst c. apply (output_value w WF evaluate _ o OUT s Gd (proj1 Cc eq_refl)).
Qed.

(** On a complete execution that has all its inputs, displaying a block the output
    does not need succeeds as soon as its evaluations do. *)
Theorem C46_display_succeeds :
  well_formed w -> locks_sound default lock_flag -> (forall b l, Permutation (set_order b l) l) ->
  forall o, output w = Some o ->
  (forall c, In c displays -> c < List.length (blocks w)) -> (forall c, In c exports -> c < List.length (blocks w)) ->
  forall given iv qs s shown, requests_give given iv qs -> session iv qs = Ok (s, shown) ->
  completed s = Ok true ->
  (forall i v, nth_error (inputs w) i = Some v -> s_iv s i <> None \/ default v <> None) ->
  (forall v x, is_input w v -> given v = Some x -> type_ok v x = true) ->
  forall b bl, nth_error (blocks w) b = Some bl -> b_out bl <> [] -> ~ needed w b -> acyclic_on w (leads_to w b) ->
  (forall n bn xs, leads_to w b n \/ needed w n -> nth_error (blocks w) n = Some bn ->
     have_values w given evaluate (b_in bn) xs ->
     exists ys, evaluate n xs = Ok ys /\ List.length (b_out bn) <= List.length ys) ->
  forall before after, (forall c, In c after -> selector c <> selector b) ->
  (displays = before ++ b :: after -> exists y s', block_display b s = Ok (y, s')
      /\ exists ys, block_result w given evaluate b ys /\ nth_error ys 0 = Some y)
  /\ (exports = before ++ b :: after -> exists y s', export b s = Ok (y, s')
      /\ exists ys, block_result w given evaluate b ys /\ nth_error ys 0 = Some y).
Proof.
  intros WF LS SO o OUT VD VE given iv qs s shown RG E C GV TY b bl Nb Ob Nn AC EV before after SEL.
  destruct (requests_agree given iv qs RG) as [ST AG].
  destruct (session_good w WF default lock_flag LS type_ok evaluate set_order SO o OUT selector given displays exports VD VE
              iv qs (s, shown) ST AG E) as [I Sh]. simpl in I, Sh.
  destruct (completed_ok w WF default lock_flag LS type_ok evaluate set_order SO given o OUT s) as [c [Ec Cc]].
  rewrite C in Ec. inversion Ec; subst c. assert (Dn := proj1 Cc eq_refl). clear Cc Ec.
  assert (TY' : forall v x, In v (inputs w) -> given v = Some x -> type_ok v x = true)
    by (intros v x J; apply TY; apply (inputs_In w WF); auto).
  assert (ACT : forall s0, inv w default evaluate given s0 -> (forall i v, nth_error (inputs w) i = Some v -> s_iv s0 i <> None \/ default v <> None) ->
    exists s1, activate_inputs w default lock_flag type_ok false s0 = Ok s1 /\ inv w default evaluate given s1 /\ ext w s0 s1
      /\ forall v, In v (inputs w) -> s_var s1 v = true).
  { intros s0 I0 GV0.
    pose proof (activate_inputs_good w WF default lock_flag LS type_ok evaluate given false s0 (i_good _ _ _ _ _ I0) (i_def _ _ _ _ _ I0)) as A.
    pose proof (activate_inputs_inv w WF default lock_flag LS type_ok evaluate given s0 I0) as AI.
    destruct (activate_inputs w default lock_flag type_ok false s0) as [s1|e].
    - exists s1. destruct AI as [I1 E1]. destruct A as [_ [_ [_ [_ A]]]]. split; auto. split; auto. split; auto.
      intros v J. apply In_nth_error in J. destruct J as [i J]. eapply A; eauto.
    - exfalso. destruct AI as [_ [v [x [J [Gx T]]]]]. rewrite (TY' v x J Gx) in T. discriminate. }
  assert (REACH : forall known s0, (forall c, In c known -> c < List.length (blocks w)) -> known = before ++ b :: after ->
    inv w default evaluate given s0 -> (forall i v, nth_error (inputs w) i = Some v -> s_iv s0 i <> None \/ default v <> None) ->
    (forall n, needed w n -> s_blk s0 n = true) ->
    exists y s', show w default lock_flag type_ok evaluate set_order selector known b s0 = Ok (y, s')
      /\ exists ys, block_result w given evaluate b ys /\ nth_error ys 0 = Some y).
  { intros known s0 Hv K I0 GV0 Dn0. destruct (ACT s0 I0 GV0) as [s1 [A [_ [_ On]]]].
    eapply (show_reach w WF default lock_flag LS type_ok evaluate set_order SO o OUT selector given known b bl s0 s1); eauto.
    exists before, after. auto. }
  split; intros K.
  - unfold BranchModel.block_display. destruct (ACT s I GV) as [s1 [A [I1 [E1 On]]]]. rewrite A. cbn [bind].
    apply REACH; auto.
    + intros i v N. destruct (GV i v N); auto. left. apply (e_iv _ _ _ E1). auto.
    + intros n Hn. rewrite (e_blk _ _ _ E1). auto.
  - unfold BranchModel.export. apply REACH; auto.
Qed.

(** Why a display fails. *)
Theorem C46_display_failures :
  well_formed w -> locks_sound default lock_flag -> (forall b l, Permutation (set_order b l) l) ->
  forall o, output w = Some o ->
  (forall c, In c displays -> c < List.length (blocks w)) -> (forall c, In c exports -> c < List.length (blocks w)) ->
  forall given iv qs s shown, requests_give given iv qs -> session iv qs = Ok (s, shown) ->
  forall b e, block_display b s = Err e ->
  (e = TypeError /\ exists v x, is_input w v /\ given v = Some x /\ type_ok v x = false)
  \/ (e = IndexError /\ List.length (blocks w) <= b)
  \/ (e = KeyError /\ forall c, In c displays -> selector c <> selector b)
  \/ (exists c n bn xs, In c displays /\ selector c = selector b /\ leads_to w c n
        /\ nth_error (blocks w) n = Some bn /\ have_values w given evaluate (b_in bn) xs /\ evaluate n xs = Err e)
  \/ (e = WorkflowError)
  \/ (e = IndexError /\ block_result w given evaluate b []).
Proof.
  intros WF LS SO o OUT VD VE given iv qs s shown RG E b e F.
  destruct (requests_agree given iv qs RG) as [ST AG].
  destruct (session_good w WF default lock_flag LS type_ok evaluate set_order SO o OUT selector given displays exports VD VE
              iv qs (s, shown) ST AG E) as [I Sh]. simpl in I, Sh.
  unfold BranchModel.block_display in F.
  pose proof (activate_inputs_inv w WF default lock_flag LS type_ok evaluate given s I) as AI.
  destruct (activate_inputs w default lock_flag type_ok false s) as [s1|e1]; cbn [bind] in F.
  2:{ inversion F; subst e1. left. destruct AI as [-> [v [x [J [Gx T]]]]]. split; auto. exists v, x. split; auto. apply (inputs_In w WF); auto. }
  destruct AI as [I1 E1].
  pose proof (show_good w WF default lock_flag LS type_ok evaluate set_order SO o OUT selector given displays b s1 VD I1) as SG.
  rewrite F in SG. destruct SG as [[-> Nv]|[[-> K]|[[c [Lc X]]|[[c [-> _]]|[-> R]]]]].
  - right. left. split; auto. lia.
  - right. right. left. auto.
  - destruct X as [[-> [v [x [J [Gx T]]]]]|[n [bn [xs [Ln [Nn [HX Ev]]]]]]].
    + left. split; auto. exists v, x. split; auto. apply (inputs_In w WF); auto.
    + right. right. right. left. exists c, n, bn, xs. split; [eapply last_with_In; eauto|].
      split; [destruct Lc as [? [? [_ [Q _]]]]; exact Q|auto].
  - auto 10.
  - auto 10.
Qed.

(** A block the output needs is never shown once the execution is complete. *)
Theorem C46_needed_block_refused :
  well_formed w -> locks_sound default lock_flag -> (forall b l, Permutation (set_order b l) l) ->
  forall o, output w = Some o ->
  (forall c, In c displays -> c < List.length (blocks w)) -> (forall c, In c exports -> c < List.length (blocks w)) ->
  forall given iv qs s shown, requests_give given iv qs -> session iv qs = Ok (s, shown) ->
  completed s = Ok true ->
  (forall v x, is_input w v -> given v = Some x -> type_ok v x = true) ->
  forall b before after, needed w b -> displays = before ++ b :: after -> (forall c, In c after -> selector c <> selector b) ->
  block_display b s = Err WorkflowError.
Proof.
  intros WF LS SO o OUT VD VE given iv qs s shown RG E C TY b before after Nb K SEL.
  destruct (requests_agree given iv qs RG) as [ST AG].
  destruct (session_good w WF default lock_flag LS type_ok evaluate set_order SO o OUT selector given displays exports VD VE
              iv qs (s, shown) ST AG E) as [I Sh]. simpl in I, Sh.
  destruct (completed_ok w WF default lock_flag LS type_ok evaluate set_order SO given o OUT s) as [c [Ec Cc]].
  rewrite C in Ec. inversion Ec; subst c. assert (Dn := proj1 Cc eq_refl). clear Cc Ec.
  assert (ACT : forall s0, inv w default evaluate given s0 ->
    exists s1, activate_inputs w default lock_flag type_ok false s0 = Ok s1 /\ inv w default evaluate given s1 /\ ext w s0 s1).
  { intros s0 I0. pose proof (activate_inputs_inv w WF default lock_flag LS type_ok evaluate given s0 I0) as AI.
    destruct (activate_inputs w default lock_flag type_ok false s0) as [s1|e]; [exists s1; tauto|].
    exfalso. destruct AI as [_ [v [x [J [Gx T]]]]]. rewrite (TY v x (proj1 (inputs_In w WF v) J) Gx) in T. discriminate. }
  unfold BranchModel.block_display. destruct (ACT s I) as [s1 [A [I1 E1]]]. rewrite A. cbn [bind].
  destruct (ACT s1 I1) as [s2 [A2 _]].
  apply (show_main w WF default lock_flag LS type_ok evaluate set_order SO o OUT selector given displays b s1 s2); auto.
  - exists before, after. auto.
  - intros n Hn. rewrite (e_blk _ _ _ E1). auto.
Qed.

(** Branches are found by selector: when a later display block has the selector of
    [b], [b] is shown only if it belongs to the branch of the last such block. *)
Theorem C46_selector :
  well_formed w -> locks_sound default lock_flag -> (forall b l, Permutation (set_order b l) l) ->
  forall o, output w = Some o ->
  (forall c, In c displays -> c < List.length (blocks w)) -> (forall c, In c exports -> c < List.length (blocks w)) ->
  forall given iv qs s shown, requests_give given iv qs -> session iv qs = Ok (s, shown) ->
  forall b before c after y s', displays = before ++ c :: after -> selector c = selector b ->
  (forall d, In d after -> selector d <> selector b) ->
  block_display b s = Ok (y, s') -> leads_to w c b.
Proof.
  intros WF LS SO o OUT VD VE given iv qs s shown RG E b before c after y s' K Sc SEL F.
  destruct (requests_agree given iv qs RG) as [ST AG].
  destruct (session_good w WF default lock_flag LS type_ok evaluate set_order SO o OUT selector given displays exports VD VE
              iv qs (s, shown) ST AG E) as [I Sh]. simpl in I, Sh.
  unfold BranchModel.block_display in F.
  pose proof (activate_inputs_inv w WF default lock_flag LS type_ok evaluate given s I) as AI.
  destruct (activate_inputs w default lock_flag type_ok false s) as [s1|e1]; cbn [bind] in F; [|discriminate].
  destruct AI as [I1 E1].
  pose proof (show_good w WF default lock_flag LS type_ok evaluate set_order SO o OUT selector given displays b s1 VD I1) as SG.
  rewrite F in SG. destruct SG as [_ [_ [_ [[c' [Lc Lb]] _]]]].
  assert (c' = c) by (eapply (last_with_unique selector); eauto; exists before, after; auto). subst. auto.
Qed.

(** A display evaluates blocks of the branch only. *)
Theorem C46_display_evaluates_branch_only :
  well_formed w -> locks_sound default lock_flag -> (forall b l, Permutation (set_order b l) l) ->
  forall o, output w = Some o ->
  (forall c, In c displays -> c < List.length (blocks w)) ->
  forall b s y s', block_display b s = Ok (y, s') ->
  exists c l, In c displays /\ selector c = selector b /\ evaluated s' = evaluated s ++ l /\ forall x, In x l -> leads_to w c x.
Proof.
  intros WF LS SO o OUT VD b s y s' F.
  destruct (display_log w WF default lock_flag LS type_ok evaluate set_order SO o OUT selector displays VD b s y s' F)
    as [c [l [Lc Q]]].
  exists c, l. split; [eapply last_with_In; eauto|]. split; [destruct Lc as [? [? [_ [S _]]]]; exact S|exact Q].
Qed.

(** A WorkflowRun forgets the values of the other pipes, yet shows and exports exactly
    what the complete state would, successes and failures alike. *)
Theorem C46_workflow_run_shows_the_same :
  well_formed w -> locks_sound default lock_flag -> (forall b l, Permutation (set_order b l) l) ->
  forall o, output w = Some o ->
  (forall c, In c displays -> c < List.length (blocks w)) -> (forall c, In c exports -> c < List.length (blocks w)) ->
  forall user s, NoDup (map fst user) -> run user = Ok s ->
  exists r, to_workflow_run s = Ok r /\
    forall qs, (forall a, ~ In (Do a) qs) ->
    match foldM serve qs (s, []), foldM serve qs (r, []) with
    | Ok (_, shown), Ok (_, shown') => shown = shown'
    | Err e, Err e' => e = e'
    | _, _ => False
    end.
Proof.
  intros WF LS SO o OUT VD VE user s ND R.
  destruct (run_shown w WF default lock_flag LS type_ok evaluate set_order SO o OUT selector displays exports VD VE user s ND R)
    as [r [Er H]].
  exists r. split; auto. intros qs Q. apply H. intros [a|b|b] J; simpl; auto. exact (Q a J).
Qed.

(** The same after a step by step execution that evaluated needed blocks only. *)
Theorem C46_session_run_shows_the_same :
  well_formed w -> locks_sound default lock_flag -> (forall b l, Permutation (set_order b l) l) ->
  forall o, output w = Some o ->
  (forall c, In c displays -> c < List.length (blocks w)) -> (forall c, In c exports -> c < List.length (blocks w)) ->
  forall given iv qs0 s shown0, requests_give given iv qs0 -> session iv qs0 = Ok (s, shown0) ->
  completed s = Ok true -> (forall n, In n (evaluated s) -> needed w n) ->
  (forall i v, nth_error (inputs w) i = Some v -> s_iv s i <> None) ->
  exists r, to_workflow_run s = Ok r /\
    forall qs, (forall a, ~ In (Do a) qs) ->
    match foldM serve qs (s, []), foldM serve qs (r, []) with
    | Ok (_, shown), Ok (_, shown') => shown = shown'
    | Err e, Err e' => e = e'
    | _, _ => False
    end.
Proof.
  intros WF LS SO o OUT VD VE given iv qs0 s shown0 RG E C Cl On.
  destruct (requests_agree given iv qs0 RG) as [ST AG].
  destruct (session_good w WF default lock_flag LS type_ok evaluate set_order SO o OUT selector given displays exports VD VE
              iv qs0 (s, shown0) ST AG E) as [I Sh]. simpl in I, Sh.
  destruct (completed_ok w WF default lock_flag LS type_ok evaluate set_order SO given o OUT s) as [c [Ec Cc]].
  rewrite C in Ec. inversion Ec; subst c.
  destruct (state_shown w WF default lock_flag LS type_ok evaluate set_order SO o OUT selector displays exports VD VE given s I
    (session_settled w WF default lock_flag type_ok evaluate set_order o selector displays exports iv qs0 (s, shown0) E) Cl
    (proj1 Cc eq_refl) On) as [r [Er H]].
  exists r. split; auto. intros qs Q. apply H. intros [a|b|b] J; simpl; auto. exact (Q a J).
Qed.

(** ** C47 *)

(** The inputs asked for a variable: the unlocked inputs of the workflow read by the
    blocks its block depends on, each once. *)
Theorem C47_upstream_inputs :
  well_formed w -> locks_sound default lock_flag -> (forall b l, Permutation (set_order b l) l) ->
  forall b bl v, nth_error (blocks w) b = Some bl -> In v (b_in bl ++ b_out bl) ->
  exists us, upstream_inputs v = Ok us /\ NoDup us
  /\ forall u, In u us <-> lock_flag u = false /\ exists n, depends_on w b n /\ reads_input w n u.
Proof. intros WF LS SO b bl v N I. exact (upstream_inputs_ok w WF default lock_flag LS set_order SO b bl v N I). Qed.

(** What the display of a step gives is the value of the variable in the data flow. *)
Theorem C47_step_display_is_data_flow :
  well_formed w -> locks_sound default lock_flag -> (forall b l, Permutation (set_order b l) l) ->
  forall o, output w = Some o ->
  forall user v y, NoDup (map fst user) -> step_display v user = Ok y -> has_value w (given_by user) evaluate v y.
Proof.
  intros WF LS SO o OUT user v y ND E.
  pose proof (step_good w WF default lock_flag LS type_ok evaluate set_order SO o OUT user ND v) as SG.
  rewrite E in SG. exact SG.
Qed.

(** The values of the inputs asked for are enough: others may be missing. *)
Theorem C47_upstream_inputs_suffice :
  well_formed w -> locks_sound default lock_flag -> (forall b l, Permutation (set_order b l) l) ->
  forall o, output w = Some o ->
  forall user b bl v us, NoDup (map fst user) ->
  nth_error (blocks w) b = Some bl -> In v (b_out bl) -> upstream_inputs v = Ok us ->
  (forall i x, In (i, x) user -> i < List.length (inputs w)) ->
  (forall u, In u us -> given_by user u <> None) ->
  (forall u x, is_input w u -> given_by user u = Some x -> type_ok u x = true) ->
  acyclic_on w (depends_on w b) ->
  (forall n bn xs, depends_on w b n -> nth_error (blocks w) n = Some bn ->
     have_values w (given_by user) evaluate (b_in bn) xs ->
     exists ys, evaluate n xs = Ok ys /\ List.length (b_out bn) <= List.length ys) ->
  exists y, step_display v user = Ok y /\ has_value w (given_by user) evaluate v y.
Proof.
  intros WF LS SO o OUT user b bl v us ND N J EU HI HG TY AC EV.
  destruct (upstream_inputs_ok w WF default lock_flag LS set_order SO b bl v N (in_or_app _ _ _ (or_intror J))) as [us' [EU' [_ CU]]].
  rewrite EU in EU'. inversion EU'; subst us'. apply In_nth_error in J. destruct J as [k Nk].
  apply (step_reach w WF default lock_flag LS type_ok evaluate set_order SO o OUT user ND b bl k v); auto.
  - intros u n D RI. destruct (lock_flag u) eqn:Lu.
    + unfold ExecSpec.given_by. rewrite Lu. apply LS. auto.
    + apply HG. apply CU. eauto.
  - intros u x Iu. apply TY. apply (inputs_In w WF). auto.
Qed.

(** Only the inputs asked for matter. *)
Theorem C47_only_upstream_inputs_matter :
  well_formed w -> locks_sound default lock_flag -> (forall b l, Permutation (set_order b l) l) ->
  forall o, output w = Some o ->
  forall user user' b bl v us y y', NoDup (map fst user) -> NoDup (map fst user') ->
  nth_error (blocks w) b = Some bl -> In v (b_out bl) -> upstream_inputs v = Ok us ->
  (forall u, In u us -> given_by user u = given_by user' u) ->
  step_display v user = Ok y -> step_display v user' = Ok y' -> y = y'.
Proof.
  intros WF LS SO o OUT user user' b bl v us y y' ND ND' N J EU SAME E E'.
  pose proof (step_good w WF default lock_flag LS type_ok evaluate set_order SO o OUT user ND v) as SG. rewrite E in SG.
  pose proof (step_good w WF default lock_flag LS type_ok evaluate set_order SO o OUT user' ND' v) as SG'. rewrite E' in SG'.
  destruct (upstream_inputs_ok w WF default lock_flag LS set_order SO b bl v N (in_or_app _ _ _ (or_intror J))) as [us' [EU' [_ CU]]].
  rewrite EU in EU'. inversion EU'; subst us'.
  assert (Q : has_value w (given_by user') evaluate v y).
  { apply (hv_same w WF evaluate (given_by user) (given_by user') b); auto.
    - intros u n D RI. destruct (lock_flag u) eqn:Lu; [unfold ExecSpec.given_by; rewrite Lu; reflexivity|].
      apply SAME. apply CU. eauto.
    - exists b, bl. split; [constructor|auto]. }
  eapply C23_data_flow_deterministic; eauto.
Qed.

(** Why the display of a step fails. *)
Theorem C47_step_display_failures :
  well_formed w -> locks_sound default lock_flag -> (forall b l, Permutation (set_order b l) l) ->
  forall o, output w = Some o ->
  forall user v e, NoDup (map fst user) -> step_display v user = Err e ->
  (e = WorkflowError /\ ~ In v (variables w))
  \/ (e = ValueError /\ exists b, In b (blocks w) /\ In v (b_in b))
  \/ (e = TypeError /\ In v (nonblock_variables w))
  \/ exists b bl k, nth_error (blocks w) b = Some bl /\ nth_error (b_out bl) k = Some v /\
       ((e = IndexError /\ exists i x, In (i, x) user /\ List.length (inputs w) <= i)
        \/ (e = TypeError /\ exists u x, is_input w u /\ given_by user u = Some x /\ type_ok u x = false)
        \/ (exists n bn xs, depends_on w b n /\ nth_error (blocks w) n = Some bn
              /\ have_values w (given_by user) evaluate (b_in bn) xs /\ evaluate n xs = Err e)
        \/ e = WorkflowError \/ e = KeyError
        \/ (e = IndexError /\ exists ys, block_result w (given_by user) evaluate b ys /\ List.length ys <= k)).
Proof.
  intros WF LS SO o OUT user v e ND E.
  pose proof (step_good w WF default lock_flag LS type_ok evaluate set_order SO o OUT user ND v) as SG. rewrite E in SG.
  destruct SG as [A|[A|[A|[b [bl [k [N [Nk A]]]]]]]]; auto.
  right. right. right. exists b, bl, k. split; auto. split; auto.
  destruct A as [A|[[[-> [u [x [J [Gx T]]]]]|A]|A]]; auto.
  right. left. split; auto. exists u, x. split; auto. apply (inputs_In w WF); auto.
Qed.

(** Without output, no step can be displayed. *)
Theorem C47_no_output_refused :
  output w = None -> forall user v y, step_display v user <> Ok y.
Proof.
  intros OUT user v y. unfold BranchModel.step_display.
  destruct (variable_indices w v) as [[n|b [|] k]|e]; cbn [bind]; try discriminate.
  destruct (BranchModel.upstream_branch _ _ _ _ b) as [br|]; cbn [bind]; [|discriminate].
  destruct (input_values _ _ _ user) as [iv|]; cbn [bind]; [|discriminate].
  destruct (start_run _ _ _ _ iv) as [s|]; cbn [bind]; [|discriminate].
  unfold BranchModel.evaluate_branch. destruct (activate_inputs _ _ _ _ false s) as [s1|]; cbn [bind]; [|discriminate].
  unfold activable_blocks, runtime_blocks. rewrite OUT. cbn [bind]. discriminate.
Qed.
End Statements.

Print Assumptions C46_branch.
Print Assumptions C46_shown_is_data_flow.
Print Assumptions C46_display_succeeds.
Print Assumptions C46_display_failures.
Print Assumptions C46_needed_block_refused.
Print Assumptions C46_selector.
Print Assumptions C46_display_evaluates_branch_only.
Print Assumptions C46_workflow_run_shows_the_same.
Print Assumptions C46_session_run_shows_the_same.
Print Assumptions C47_upstream_inputs.
Print Assumptions C47_step_display_is_data_flow.
Print Assumptions C47_upstream_inputs_suffice.
Print Assumptions C47_only_upstream_inputs_matter.
Print Assumptions C47_step_display_failures.
Print Assumptions C47_no_output_refused.

(** ** A concrete workflow

    Block 0 maps 0 to 1; block 1, the output, maps 2 to 3; block 2 maps 4 to 5 and
    block 3, a display, takes 6 and 7.  Variable 1 feeds 2 and 4, 5 feeds 6 and the
    free variable 9 feeds 7.  Block 4, not linked, is an export. *)
Definition bx_w : workflow :=
  mkWf [mkBlock [0] [1]; mkBlock [2] [3]; mkBlock [4] [5]; mkBlock [6; 7] [8]; mkBlock [10] [11]]
       [(1, 2); (1, 4); (5, 6); (9, 7)] (Some 3).
Definition bx_default (v : nat) : option nat := if Nat.eqb v 10 then Some 4 else None.
Definition bx_eval (n : nat) (xs : list nat) : res (list nat) := Ok [10 * list_sum xs + n].
Definition bx_sel (n : nat) : string := if Nat.eqb n 3 then "display" else "export".
Definition no_lock (v : nat) : bool := false.
Definition any_type (v x : nat) : bool := true.

Lemma bx_wf : well_formed bx_w.
Proof.
  constructor; simpl.
  - repeat constructor; simpl; intuition discriminate.
  - repeat constructor; simpl; intuition discriminate.
  - intros s t H. in_cases H; [exists (mkBlock [2] [3])|exists (mkBlock [4] [5])|exists (mkBlock [6; 7] [8])|exists (mkBlock [6; 7] [8])]; simpl; auto 10.
  - intros s t b H I. in_cases H; in_cases I; simpl; intuition discriminate.
  - intros o H. inversion H; subst. exists (mkBlock [2] [3]). simpl; auto.
Qed.

Example C46_example :
  well_formed bx_w
  /\ secondary_branch_blocks bx_w bx_default no_lock ex_order 3 = Ok ([2; 3], [1])
  /\ exists s, run bx_w bx_default no_lock any_type bx_eval ex_order [(0, 1); (2, 5)] = Ok s
  /\ s_out s = Some 101 /\ evaluated s = [0; 1]
  /\ exists s', block_display bx_w bx_default no_lock any_type bx_eval ex_order [3] bx_sel 3 s = Ok (1073, s')
  /\ evaluated s' = [0; 1; 2; 3] /\ s_out s' = Some 101
  /\ exists r, to_workflow_run bx_w bx_default no_lock any_type ex_order [3] [4] s = Ok r
  /\ s_pipe r 0 = None /\ s_pipe r 1 = Some 10
  /\ exists r', foldM (serve bx_w bx_default no_lock any_type bx_eval ex_order [3] [4] bx_sel)
        [Display 3; Export 4; Display 3] (r, []) = Ok (r', [(3, 1073); (4, 44); (3, 1073)]).
Proof.
  split; [apply bx_wf|]. split; [reflexivity|].
  eexists. split; [vm_compute; reflexivity|]. split; [reflexivity|]. split; [reflexivity|].
  eexists. split; [vm_compute; reflexivity|]. split; [reflexivity|]. split; [reflexivity|].
  eexists. split; [vm_compute; reflexivity|]. split; [reflexivity|]. split; [reflexivity|].
  eexists. vm_compute. reflexivity.
Qed.

(** The hypotheses of C46_display_succeeds on the branch hold for it. *)
Example C46_succeeds_example : ~ needed bx_w 3 /\ acyclic_on bx_w (leads_to bx_w 3) /\ leads_to bx_w 3 2.
Proof.
  assert (FE : forall m n, feeds bx_w m n -> (m = 0 /\ n = 1) \/ (m = 0 /\ n = 2) \/ (m = 2 /\ n = 3)).
  { intros m n [bm [bn [s [t [Nm [Nn [Js [Jt P]]]]]]]].
    destruct m as [|[|[|[|[|m]]]]]; simpl in Nm; try (destruct m; discriminate); inversion Nm; subst; simpl in Js;
    destruct n as [|[|[|[|[|n]]]]]; simpl in Nn; try (destruct n; discriminate); inversion Nn; subst; simpl in Jt;
    simpl in P; intuition (subst; try lia; discriminate || congruence). }
  assert (NN : forall n, needed bx_w n -> n = 0 \/ n = 1).
  { induction 1 as [o n b O N J|m n F _ IH].
    - inversion O; subst. destruct n as [|[|[|[|[|n]]]]]; simpl in N; try (destruct n; discriminate); inversion N; subst;
        simpl in J; intuition (discriminate || auto).
    - apply FE in F. intuition lia. }
  split; [intros H; apply NN in H; lia|]. split.
  - exists (fun n => n). intros m n F _ _. apply FE in F. lia.
  - apply leads_step with 3; [|intros H; apply NN in H; lia|constructor].
    exists (mkBlock [4] [5]), (mkBlock [6; 7] [8]), 5, 6. simpl. auto 10.
Qed.

Example C47_example :
  upstream_inputs bx_w bx_default no_lock ex_order 5 = Ok [0]
  /\ upstream_inputs bx_w bx_default no_lock ex_order 8 = Ok [0; 9]
  /\ step_display bx_w bx_default no_lock any_type bx_eval ex_order 5 [(0, 1)] = Ok 102
  /\ step_display bx_w bx_default no_lock any_type bx_eval ex_order 8 [(0, 1); (2, 5)] = Ok 1073
  /\ step_display bx_w bx_default no_lock any_type bx_eval ex_order 8 [(0, 1)] = Err KeyError
  /\ step_display bx_w bx_default no_lock any_type bx_eval ex_order 6 [(0, 1)] = Err ValueError.
Proof. repeat split. Qed.

(** ** Violations *)

(** Two display blocks with one selector: the first cannot be shown. *)
Theorem C46_selector_clash_refuted :
  exists s, run bx_w bx_default no_lock any_type bx_eval ex_order [(0, 1); (2, 5)] = Ok s
  /\ block_display bx_w bx_default no_lock any_type bx_eval ex_order [3; 4] (fun _ => "display"%string) 3 s = Err WorkflowError
  /\ block_display bx_w bx_default no_lock any_type bx_eval ex_order [3; 4] bx_sel 3 s <> Err WorkflowError.
Proof.
  eexists. split; [vm_compute; reflexivity|]. split; [vm_compute; reflexivity|]. vm_compute. discriminate.
Qed.

(** Block 1 (2 to 3) is fed by block 0 (0 to 1); block 2, a display, takes both; the
    output, block 3, is apart. *)
Definition bd_w : workflow :=
  mkWf [mkBlock [0] [1]; mkBlock [2] [3]; mkBlock [4; 5] [6]; mkBlock [7] [8]]
       [(1, 2); (1, 4); (3, 5)] (Some 8).
Definition bd_eval (n : nat) (xs : list nat) : res (list nat) :=
  Ok [match n with 2 => list_sum xs | 1 => 10 * list_sum xs | _ => list_sum xs end].
Definition bd_order (b : nat) (l : list nat) : list nat := rev l.

Lemma bd_wf : well_formed bd_w.
Proof.
  constructor; simpl.
  - repeat constructor; simpl; intuition discriminate.
  - repeat constructor; simpl; intuition discriminate.
  - intros s t H. in_cases H; [exists (mkBlock [2] [3])|exists (mkBlock [4; 5] [6])|exists (mkBlock [4; 5] [6])]; simpl; auto 10.
  - intros s t b H I. in_cases H; in_cases I; simpl; intuition discriminate.
  - intros o H. inversion H; subst. exists (mkBlock [7] [8]). simpl; auto 10.
Qed.

Notation bd_session order := (session bd_w (fun _ => None) no_lock any_type bd_eval order [2] [] (fun _ => "d"%string) (fun _ => None)).

(** After the value of input 0 changes from 1 to 5, displaying block 2 again gives
    5 + 10 * 1 with one iteration order of the sets: block 1 is evaluated on the old
    value of block 0.  With the other order it gives 5 + 10 * 5. *)
Theorem C46_changed_input_refuted :
  (exists s, bd_session ex_order [Do (AddInput 0 1); Do (AddInput 1 0); Display 2; Do (AddInput 0 5); Display 2]
      = Ok (s, [(2, 11); (2, 15)]))
  /\ (exists s, bd_session bd_order [Do (AddInput 0 1); Do (AddInput 1 0); Display 2; Do (AddInput 0 5); Display 2]
      = Ok (s, [(2, 11); (2, 55)])).
Proof. split; eexists; vm_compute; reflexivity. Qed.

(** A state that displayed block 2 before it completed becomes a WorkflowRun that can
    no longer display it, with one iteration order of the sets. *)
Theorem C46_displayed_before_run_refuted :
  exists s sh r, bd_session ex_order [Do (AddInput 0 1); Do (AddInput 1 0); Display 2; Do Continue] = Ok (s, sh)
  /\ (exists s', block_display bd_w (fun _ => None) no_lock any_type bd_eval ex_order [2] (fun _ => "d"%string) 2 s = Ok (11, s'))
  /\ to_workflow_run bd_w (fun _ => None) no_lock any_type ex_order [2] [] s = Ok r
  /\ block_display bd_w (fun _ => None) no_lock any_type bd_eval ex_order [2] (fun _ => "d"%string) 2 r = Err KeyError.
Proof.
  eexists. eexists. eexists. split; [vm_compute; reflexivity|].
  split; [eexists; vm_compute; reflexivity|]. split; [vm_compute; reflexivity|]. vm_compute. reflexivity.
Qed.

(** A block from which a display block is reached in two ways is listed twice in its
    branch and evaluated twice by each display. *)
Theorem C46_evaluated_once_refuted :
  let w := mkWf [mkBlock [0] [1]; mkBlock [2] [3]; mkBlock [4] [5]; mkBlock [6; 7] [8]; mkBlock [9] [10]]
             [(1, 2); (1, 4); (3, 6); (5, 7)] (Some 10) in
  secondary_branch_blocks (V := nat) w (fun _ => None) no_lock ex_order 3 = Ok ([0; 0; 2; 1; 3], [])
  /\ exists s, session w (fun _ => None) no_lock any_type bd_eval ex_order [3] [] (fun _ => "d"%string) (fun _ => Some 1) [Display 3]
       = Ok (s, [(3, 11)]) /\ evaluated s = [0; 0; 2; 1; 3].
Proof. split; [reflexivity|]. eexists. split; [vm_compute; reflexivity|]. reflexivity. Qed.

Print Assumptions C46_selector_clash_refuted.
Print Assumptions C46_changed_input_refuted.
Print Assumptions C46_displayed_before_run_refuted.
Print Assumptions C46_evaluated_once_refuted.

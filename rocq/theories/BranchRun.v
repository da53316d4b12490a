(** A workflow run keeps what displays and exports need. *)
From Coq Require Import String Bool Arith Lia Permutation List.
From Verif Require Import Base BaseProofs ExecModel ExecSpec ExecStruct ExecRuntime ExecProofs ExecRun
  ExecSim
  BranchModel BranchSpec BranchProofs BranchEval BranchShow.
Import ListNotations.

Section B.
Context {V : Type}.
Variable w : workflow.
Hypothesis WF : well_formed w.
Variable default : nat -> option V.
Variable lock_flag : nat -> bool.
Hypothesis LS : locks_sound default lock_flag.
Variable type_ok : nat -> V -> bool.
Variable evaluate : nat -> list V -> res (list V).
Variable set_order : nat -> list nat -> list nat.
Hypothesis SO : forall b l, Permutation (set_order b l) l.
Variable o : nat.
Hypothesis OUT : output w = Some o.
Variable selector : nat -> string.

Notation state := (state V).
Notation valid n := (n < List.length (blocks w)).
Notation secondary_branch_blocks := (secondary_branch_blocks w default lock_flag set_order).
Notation evaluate_branch := (evaluate_branch w default lock_flag type_ok evaluate set_order).
Notation branch_rounds := (branch_rounds w default lock_flag evaluate set_order).
Notation show := (show w default lock_flag type_ok evaluate set_order selector).
Notation activate_inputs := (activate_inputs w default lock_flag type_ok).
Notation activate_input := (activate_input w type_ok).
Notation activate_variable := (activate_variable w).
Notation activable_blocks := (activable_blocks w default lock_flag set_order).

Notation into := (into w).
Notation from_input := (from_input w).
Notation all_given := (all_given w).
Notation settled := (settled w default type_ok).

Lemma sim_block K n s r : sim K s r -> (forall p, into p n -> K p) ->
  match evaluate_block_values w evaluate n s, evaluate_block_values w evaluate n r with
  | Ok (s', xs), Ok (r', ys) => sim K s' r' /\ xs = ys
  | Err e, Err f => e = f
  | _, _ => False
  end.
Proof.
  intros H HK. unfold evaluate_block_values. destruct (nth_error (blocks w) n) as [b|] eqn:N; auto.
  pose proof (sim_read w WF type_ok evaluate o K (b_in b) s r H) as R.
  assert (HK' : forall v p q, In v (b_in b) -> nth_error (pipes w) p = Some (q, v) -> K p).
  { intros v p q I P. apply HK. exists b, q, v. auto. }
  specialize (R HK'). destruct (read_inputs w (b_in b) s) as [[s1 xs]|e], (read_inputs w (b_in b) r) as [[r1 ys]|e'];
    cbn [bind fst snd]; auto; try contradiction. destruct R as [R ->].
  destruct (evaluate n ys) as [zs|e]; cbn [bind]; auto.
  assert (Q : simres K (activate_block w n (b_out b) zs (log_block n s1)) (activate_block w n (b_out b) zs (log_block n r1)))
    by (apply (sim_activate_block w type_ok evaluate o); apply sim_log; auto).
  unfold simres in Q.
  destruct (activate_block w n (b_out b) zs (log_block n s1)), (activate_block w n (b_out b) zs (log_block n r1)); cbn [bind]; auto.
Qed.

Lemma block_iv n (s s' : state) ys : evaluate_block_values w evaluate n s = Ok (s', ys) -> s_iv s' = s_iv s.
Proof.
  unfold evaluate_block_values. destruct (nth_error (blocks w) n) as [b|]; [|discriminate].
  assert (Q : forall ins (s s' : state) xs, read_inputs w ins s = Ok (s', xs) -> s_iv s' = s_iv s).
  { induction ins as [|v ins IH]; intros s0 s1 xs E; [simpl in E; inversion E; auto|]. cbn [read_inputs] in E.
    destruct (read_input w v s0) as [x|]; cbn [bind] in E; [|discriminate].
    destruct (activate_variable (fuel w) v x s0) as [s2|] eqn:E2; cbn [bind] in E; [|discriminate].
    destruct (read_inputs w ins s2) as [[s3 zs]|] eqn:E3; cbn [bind fst snd] in E; [|discriminate]. inversion E; subst.
    apply IH in E3. apply (variable_iv w) in E2. congruence. }
  destruct (read_inputs w (b_in b) s) as [[s1 xs]|] eqn:E1; cbn [bind fst snd]; [|discriminate].
  destruct (evaluate n xs) as [zs|]; cbn [bind]; [|discriminate].
  apply Q in E1. unfold activate_block.
  assert (Q' : forall l (s s' : state), foldM (fun s (ox : nat * V) => activate_variable (fuel w) (fst ox) (snd ox) s) l s = Ok s' -> s_iv s' = s_iv s).
  { induction l as [|a l IH]; intros s0 s2 E; [simpl in E; inversion E; auto|]. cbn [foldM] in E.
    destruct (activate_variable (fuel w) (fst a) (snd a) s0) as [s3|] eqn:E3; cbn [bind] in E; [|discriminate].
    apply IH in E. apply (variable_iv w) in E3. congruence. }
  destruct (foldM _ (combine (b_out b) zs) (log_block n s1)) as [s2|] eqn:E2; cbn [bind]; [|discriminate].
  intros E. inversion E; subst. simpl. apply Q' in E2. rewrite E2. simpl. exact E1.
Qed.

Definition simev (K : nat -> Prop) (a b : res (state * @results V)) : Prop :=
  match a, b with
  | Ok (s, ev), Ok (r, ev') => sim K s r /\ ev = ev' /\ all_given s
  | Err e, Err f => e = f
  | _, _ => False
  end.

Lemma sim_all K bs : forall s r ev, all_given s -> sim K s r -> (forall n p, In n bs -> into p n -> K p) ->
  simev K (evaluate_all w evaluate bs s ev) (evaluate_all w evaluate bs r ev).
Proof.
  induction bs as [|b bs IH]; intros s r ev A H HK; simpl; auto.
  pose proof (sim_block K b s r H (fun p => HK b p (or_introl eq_refl))) as Q. pose proof (block_iv b s) as IVQ.
  destruct (evaluate_block_values w evaluate b s) as [[s1 xs]|e], (evaluate_block_values w evaluate b r) as [[r1 ys]|e'];
    cbn [bind fst snd]; auto; try contradiction. destruct Q as [Q ->]. apply IH; auto.
  - intros i v N. rewrite (IVQ _ _ eq_refl). eauto.
  - intros n p I. apply HK. simpl. auto.
Qed.

Lemma sim_rounds (K : nat -> Prop) n bs : (forall n p, In n bs -> into p n -> K p) -> forall s r ev, all_given s -> sim K s r ->
  simev K (branch_rounds n bs s ev) (branch_rounds n bs r ev).
Proof.
  intros HK. induction n as [|n IH]; intros s r ev A H; simpl; auto.
  destruct (Nat.eqb (List.length ev) (List.length bs)); simpl; auto.
  rewrite (sim_activable w default lock_flag set_order K s r H). destruct (activable_blocks r) as [act|e]; cbn [bind]; simpl; auto.
  pose proof (sim_all K (filter (fun b => memb Nat.eqb b act && match lookup b ev with Some _ => false | None => true end) bs) s r ev A H) as Q.
  specialize (Q (fun m p I => HK m p (proj1 (proj1 (filter_In _ _ _) I)))). unfold simev in Q.
  destruct (evaluate_all w evaluate _ s ev) as [[s1 e1]|e], (evaluate_all w evaluate _ r ev) as [[r1 e2]|e'];
    cbn [bind fst snd]; simpl; auto; try contradiction. destruct Q as [Q [-> A1]]. auto.
Qed.

Lemma sim_branch (K : nat -> Prop) bs s r : all_given s -> sim K s r -> (forall n p, In n bs -> into p n -> K p \/ from_input p) ->
  simev (fun p => K p \/ from_input p) (evaluate_branch bs s) (evaluate_branch bs r).
Proof.
  intros A H HK. unfold BranchModel.evaluate_branch. pose proof (sim_inputs w WF default lock_flag type_ok evaluate o K s r A H) as Q.
  destruct (activate_inputs false s) as [s1|e], (activate_inputs false r) as [r1|e']; cbn [bind]; try exact Q; try contradiction.
  destruct Q as [Q A1]. rewrite (sim_activable w default lock_flag set_order _ s1 r1 Q). destruct (activable_blocks r1) as [act|e]; cbn [bind]; [|reflexivity].
  destruct (existsb _ bs); [|reflexivity]. apply (sim_rounds _ (S (List.length bs))); auto.
Qed.

(** ** Displays and exports *)
Variables displays exports : list nat.
Hypothesis VD : forall c, In c displays -> valid c.
Hypothesis VE : forall c, In c exports -> valid c.
Notation serve := (serve w default lock_flag type_ok evaluate set_order displays exports selector).
Notation memorized_pipes := (memorized_pipes w default lock_flag set_order displays exports).
Notation to_workflow_run := (to_workflow_run w default lock_flag type_ok set_order displays exports).

Definition enough (K : nat -> Prop) (known : list nat) : Prop :=
  forall c n p, In c known -> leads_to w c n -> into p n -> K p \/ from_input p.

Lemma sim_show K known b s r : (forall c, In c known -> valid c) -> enough K known -> all_given s -> sim K s r ->
  match show known b s, show known b r with
  | Ok (x, s'), Ok (y, r') => x = y /\ sim (fun p => K p \/ from_input p) s' r' /\ all_given s'
  | Err e, Err f => e = f
  | _, _ => False
  end.
Proof.
  intros Hv EN A H. unfold BranchModel.show. destruct (b <? List.length (blocks w)); auto.
  destruct (branch_by_selector_ok w WF default lock_flag LS type_ok evaluate set_order SO o OUT selector known Hv) as [d [Ed Cd]].
  rewrite Ed. cbn [bind]. specialize (Cd (selector b)).
  destruct (get_branch (selector b) d) as [br|]; cbn [of_option bind]; auto.
  destruct Cd as [c [Lc [_ [Cb _]]]].
  pose proof (sim_branch K br s r A H (fun n p I => EN c n p (last_with_In _ _ _ _ Lc) (proj1 (Cb n) I))) as Q.
  unfold simev in Q. destruct (evaluate_branch br s) as [[s1 e1]|e], (evaluate_branch br r) as [[r1 e2]|e']; cbn [bind fst snd]; auto; try contradiction.
  destruct Q as [Q [-> A1]]. destruct (lookup b e2) as [ys|]; cbn [of_option bind]; auto.
  destruct (nth_error ys 0); cbn [of_option bind]; auto.
Qed.

Lemma enough_more K known : enough K known -> enough (fun p => K p \/ from_input p) known.
Proof. intros H c n p I L P. destruct (H c n p I L P); auto. Qed.

Definition is_show (q : request (V := V)) : Prop := match q with Do _ => False | _ => True end.

Lemma sim_serve K q s r sh : is_show q -> enough K displays -> enough K exports -> all_given s -> sim K s r ->
  match serve (s, sh) q, serve (r, sh) q with
  | Ok (s', sh1), Ok (r', sh2) => sh1 = sh2 /\ sim K s' r' /\ all_given s'
  | Err e, Err f => e = f
  | _, _ => False
  end.
Proof.
  intros Sq ED EE A H. destruct q as [a|b|b]; [contradiction| |]; cbn [BranchModel.serve fst snd].
  - unfold block_display. pose proof (sim_inputs w WF default lock_flag type_ok evaluate o K s r A H) as Q.
    destruct (activate_inputs false s) as [s1|e], (activate_inputs false r) as [r1|e']; cbn [bind]; auto; try contradiction.
    destruct Q as [Q A1]. pose proof (sim_show _ displays b s1 r1 VD (enough_more _ _ ED) A1 Q) as W.
    destruct (show displays b s1) as [[x s2]|], (show displays b r1) as [[y r2]|]; cbn [bind fst snd]; auto; try contradiction.
    destruct W as [-> [W A2]]. split; auto. split; auto. eapply sim_sub; [|exact W]. simpl. tauto.
  - unfold export. pose proof (sim_show _ exports b s r VE EE A H) as W.
    destruct (show exports b s) as [[x s2]|], (show exports b r) as [[y r2]|]; cbn [bind fst snd]; auto; try contradiction.
    destruct W as [-> [W A2]]. split; auto. split; auto. eapply sim_sub; [|exact W]. simpl. tauto.
Qed.

Definition same_shown (a b : res (state * list (nat * V))) : Prop :=
  match a, b with
  | Ok (s', sh1), Ok (r', sh2) => sh1 = sh2
  | Err e, Err f => e = f
  | _, _ => False
  end.

Lemma sim_serves K qs : (forall q, In q qs -> is_show q) -> enough K displays -> enough K exports ->
  forall s r sh, all_given s -> sim K s r -> same_shown (foldM serve qs (s, sh)) (foldM serve qs (r, sh)).
Proof.
  intros Sq ED EE. induction qs as [|q qs IH]; intros s r sh A H; cbn [foldM]; simpl; auto.
  pose proof (sim_serve K q s r sh (Sq q (or_introl eq_refl)) ED EE A H) as W.
  destruct (serve (s, sh) q) as [[s1 sh1]|], (serve (r, sh) q) as [[r1 sh2]|]; cbn [bind]; simpl; auto; try contradiction.
  destruct W as [-> [W A1]]. apply IH; auto. intros; apply Sq; simpl; auto.
Qed.

(** The memorized pipes contain all those from needed blocks into branches. *)
Lemma memorized_ok : exists memo, memorized_pipes = Ok memo /\
  forall c n m p, In c (displays ++ exports) -> leads_to w c n -> needed w m -> pipe_joins w p m n -> In p memo.
Proof.
  unfold BranchModel.memorized_pipes.
  match goal with |- exists memo, bind (mapM ?f displays) _ = _ /\ _ =>
    destruct (mapM_total f (fun _ _ => True) displays) as [l1 [E1 _]] end.
  { intros b I. specialize (VD b I). destruct (nth_error (blocks w) b) as [bl|] eqn:N; [|apply nth_error_None in N; lia].
    cbn [of_option bind]. eauto. }
  rewrite E1. cbn [bind].
  match goal with |- exists memo, bind (mapM ?f ?l) _ = _ /\ _ => destruct (mapM_total f (fun b ps => f b = Ok ps) l) as [l2 [E2 F2]] end.
  { intros b I. assert (L : valid b) by (apply in_app_or in I; destruct I; auto).
    destruct (secondary_branch_ok w WF default lock_flag LS set_order SO o OUT b L) as [br [ps [Eb _]]]. rewrite Eb. exists ps. auto. }
  rewrite E2. cbn [bind]. eexists. split; [reflexivity|].
  intros c n m p I L Nm PJ. apply in_or_app. right.
  assert (Vc : valid c) by (apply in_app_or in I; destruct I; auto).
  destruct (secondary_branch_ok w WF default lock_flag LS set_order SO o OUT c Vc) as [br [ps [Eb [Cb [_ Cp]]]]].
  apply in_concat. apply In_nth_error in I. destruct I as [k Nk].
  assert (exists ps', nth_error l2 k = Some ps' /\ (let* r := secondary_branch_blocks c in Ok (snd r)) = Ok ps') as [ps' [Nk' Eq]].
  { clear - F2 Nk. revert k Nk. induction F2 as [|x y lx ly H F IH]; intros [|k] Nk; simpl in *; try discriminate; eauto.
    inversion Nk; subst. eauto. }
  rewrite Eb in Eq. cbn [bind snd] in Eq. inversion Eq; subst ps'.
  exists ps. split; [eapply nth_error_In; eauto|]. apply Cp. exists m, n. auto.
Qed.

(** ** Displays and exports leave the inputs activated *)
Lemma values_block n (s s' : state) ys : evaluate_block_values w evaluate n s = Ok (s', ys) -> evaluate_block w evaluate n s = Ok s'.
Proof.
  unfold evaluate_block_values, evaluate_block. destruct (nth_error (blocks w) n) as [b|]; auto; [|discriminate].
  destruct (read_inputs w (b_in b) s) as [[s1 xs]|]; cbn [bind fst snd]; [|discriminate].
  destruct (evaluate n xs) as [zs|]; cbn [bind]; [|discriminate].
  destruct (activate_block w n (b_out b) zs (log_block n s1)) as [s2|]; cbn [bind]; [|discriminate]. intros E. inversion E; auto.
Qed.

Lemma all_settled bs : forall (s : state) ev r, settled s -> evaluate_all w evaluate bs s ev = Ok r -> settled (fst r).
Proof.
  induction bs as [|b bs IH]; intros s ev r S E; cbn [evaluate_all] in E; [inversion E; subst; auto|].
  destruct (evaluate_block_values w evaluate b s) as [[s1 ys]|] eqn:E1; cbn [bind fst snd] in E; [|discriminate].
  apply values_block in E1. apply IH in E; auto. eapply (evaluate_block_settled w WF); eauto.
Qed.

Lemma rounds_settled n bs : forall (s : state) ev r, settled s -> branch_rounds n bs s ev = Ok r -> settled (fst r).
Proof.
  induction n as [|n IH]; intros s ev r S E; cbn [BranchModel.branch_rounds] in E; [inversion E; subst; auto|].
  destruct (Nat.eqb (List.length ev) (List.length bs)); [inversion E; subst; auto|].
  destruct (activable_blocks s) as [act|]; cbn [bind] in E; [|discriminate].
  destruct (evaluate_all w evaluate _ s ev) as [[s1 e1]|] eqn:E1; cbn [bind fst snd] in E; [|discriminate].
  apply IH in E; auto. apply (all_settled _ _ _ _ S E1).
Qed.

Lemma show_settled known b (s : state) r : show known b s = Ok r -> settled (snd r).
Proof.
  unfold BranchModel.show. destruct (b <? List.length (blocks w)); [|discriminate].
  destruct (branch_by_selector _ _ _ _ _ known) as [d|]; cbn [bind]; [|discriminate].
  destruct (get_branch (selector b) d) as [br|]; cbn [of_option bind]; [|discriminate].
  destruct (evaluate_branch br s) as [q|] eqn:E; cbn [bind]; [|discriminate].
  destruct (lookup b (snd q)) as [ys|]; cbn [of_option bind]; [|discriminate].
  destruct (nth_error ys 0); cbn [of_option bind]; [|discriminate]. intros Q. inversion Q; subst. simpl.
  unfold BranchModel.evaluate_branch in E. destruct (activate_inputs false s) as [s1|] eqn:E1; cbn [bind] in E; [|discriminate].
  destruct (activable_blocks s1) as [act|]; cbn [bind] in E; [|discriminate]. destruct (existsb _ br); [|discriminate].
  apply rounds_settled in E; auto. eapply (inputs_settled w WF); eauto.
Qed.

Lemma serve_settled q s sh r : settled s -> serve (s, sh) q = Ok r -> settled (fst r).
Proof.
  intros S. destruct q as [a|b|b]; cbn [BranchModel.serve fst snd].
  - destruct (act w default lock_flag type_ok evaluate set_order s a) as [s1|] eqn:E; cbn [bind]; [|discriminate].
    intros Q. inversion Q; subst. simpl. eapply (act_settled w WF); eauto.
  - unfold block_display. destruct (activate_inputs false s) as [s1|]; cbn [bind]; [|discriminate].
    destruct (show displays b s1) as [x|] eqn:E; cbn [bind]; [|discriminate]. intros Q. inversion Q; subst. eapply show_settled; eauto.
  - unfold export. destruct (show exports b s) as [x|] eqn:E; cbn [bind]; [|discriminate].
    intros Q. inversion Q; subst. eapply show_settled; eauto.
Qed.

Lemma session_settled iv qs r :
  session w default lock_flag type_ok evaluate set_order displays exports selector iv qs = Ok r -> settled (fst r).
Proof.
  unfold session, start_run. destruct (activate_inputs false _) as [s0|] eqn:E0; cbn [bind]; [|discriminate].
  apply (inputs_settled w WF default lock_flag type_ok evaluate o) in E0. revert s0 E0. generalize (@nil (nat * V)) as sh.
  induction qs as [|q qs IH]; intros sh s0 S E; cbn [foldM] in E; [inversion E; subst; auto|].
  destruct (serve (s0, sh) q) as [[s1 sh1]|] eqn:E1; cbn [bind] in E; [|discriminate].
  apply (IH sh1 s1); auto. apply (serve_settled _ _ _ _ S E1).
Qed.

(** ** Only what the workflow has is flagged *)
Lemma all_tidy bs : forall (s : state) ev r, tidy w s -> evaluate_all w evaluate bs s ev = Ok r -> tidy w (fst r).
Proof.
  induction bs as [|b bs IH]; intros s ev r S E; cbn [evaluate_all] in E; [inversion E; subst; auto|].
  destruct (evaluate_block_values w evaluate b s) as [[s1 ys]|] eqn:E1; cbn [bind fst snd] in E; [|discriminate].
  apply values_block in E1. apply IH in E; auto. eapply (block_tidy w WF); eauto.
Qed.

Lemma rounds_tidy n bs : forall (s : state) ev r, tidy w s -> branch_rounds n bs s ev = Ok r -> tidy w (fst r).
Proof.
  induction n as [|n IH]; intros s ev r S E; cbn [BranchModel.branch_rounds] in E; [inversion E; subst; auto|].
  destruct (Nat.eqb (List.length ev) (List.length bs)); [inversion E; subst; auto|].
  destruct (activable_blocks s) as [act|]; cbn [bind] in E; [|discriminate].
  destruct (evaluate_all w evaluate _ s ev) as [[s1 e1]|] eqn:E1; cbn [bind fst snd] in E; [|discriminate].
  apply IH in E; auto. apply (all_tidy _ _ _ _ S E1).
Qed.

Lemma show_tidy known b (s : state) r : tidy w s -> show known b s = Ok r -> tidy w (snd r).
Proof.
  intros S. unfold BranchModel.show. destruct (b <? List.length (blocks w)); [|discriminate].
  destruct (branch_by_selector _ _ _ _ _ known) as [d|]; cbn [bind]; [|discriminate].
  destruct (get_branch (selector b) d) as [br|]; cbn [of_option bind]; [|discriminate].
  destruct (evaluate_branch br s) as [q|] eqn:E; cbn [bind]; [|discriminate].
  destruct (lookup b (snd q)) as [ys|]; cbn [of_option bind]; [|discriminate].
  destruct (nth_error ys 0); cbn [of_option bind]; [|discriminate]. intros Q. inversion Q; subst. simpl.
  unfold BranchModel.evaluate_branch in E. destruct (activate_inputs false s) as [s1|] eqn:E1; cbn [bind] in E; [|discriminate].
  apply (inputs_tidy w WF) in E1; auto.
  destruct (activable_blocks s1) as [act|]; cbn [bind] in E; [|discriminate]. destruct (existsb _ br); [|discriminate].
  apply rounds_tidy in E; auto.
Qed.

Lemma serve_tidy q s sh r : tidy w s -> serve (s, sh) q = Ok r -> tidy w (fst r).
Proof.
  intros S. destruct q as [a|b|b]; cbn [BranchModel.serve fst snd].
  - destruct (act w default lock_flag type_ok evaluate set_order s a) as [s1|] eqn:E; cbn [bind]; [|discriminate].
    intros Q. inversion Q; subst. simpl. eapply (act_tidy w WF); eauto.
  - unfold block_display. destruct (activate_inputs false s) as [s1|] eqn:E1; cbn [bind]; [|discriminate].
    apply (inputs_tidy w WF) in E1; auto.
    destruct (show displays b s1) as [x|] eqn:E; cbn [bind]; [|discriminate]. intros Q. inversion Q; subst. apply show_tidy in E; auto.
  - unfold export. destruct (show exports b s) as [x|] eqn:E; cbn [bind]; [|discriminate].
    intros Q. inversion Q; subst. apply show_tidy in E; auto.
Qed.

(** A completed state where only needed blocks ran. *)
Lemma state_shown G s : inv w default evaluate G s -> settled s ->
  (forall n, In n (evaluated s) -> needed w n) -> (forall n, needed w n -> s_blk s n = true) -> all_given s ->
  exists r, to_workflow_run s = Ok r /\
    forall qs, (forall q, In q qs -> is_show q) -> same_shown (foldM serve qs (s, [])) (foldM serve qs (r, [])).
Proof.
  intros I St Cl Dn On. unfold BranchModel.to_workflow_run.
  destruct (completed_ok w WF default lock_flag LS type_ok evaluate set_order SO G o OUT s) as [c [Ec Cc]].
  rewrite Ec. cbn [bind]. rewrite (proj2 Cc Dn). unfold workflow_run.
  destruct memorized_ok as [memo [Em Cm]]. rewrite Em. cbn [bind].
  set (K := fun p => In p memo \/ s_pipe s p = None).
  assert (S0 : sim K s (mkState (s_iv s) (s_var s) (s_blk s)
    (fun p => if memb Nat.eqb p memo then s_pipe s p else None) (s_out s) (evaluated s))).
  { constructor; simpl; auto. intros p [J|J].
    + apply (memb_In _ nat_eqb_iff) in J. rewrite J. reflexivity.
    + rewrite J. destruct (memb Nat.eqb p memo); reflexivity. }
  destruct (inputs_again w WF default lock_flag LS type_ok s false St (or_introl eq_refl)) as [s1 [E1 S1]].
  pose proof (sim_inputs w WF default lock_flag type_ok evaluate o K _ _ On S0) as Q. rewrite E1 in Q.
  destruct (activate_inputs false (mkState _ _ _ _ _ _)) as [r|]; [|contradiction]. destruct Q as [Q _].
  exists r. split; auto.
  set (K' := fun p => (K p \/ from_input p) /\ real_pipe w p).
  assert (SR : sim K' s r).
  { apply sim_trans with s1; [eapply sim_sub; [|exact S1]|eapply sim_sub; [|exact Q]]; intros p [? ?]; auto. }
  assert (EN : forall known, incl known (displays ++ exports) -> enough K' known).
  { intros known INC c0 n p Ic L [bn [q [t [N [It P]]]]].
    assert (RP : real_pipe w p) by (unfold real_pipe; apply nth_error_Some; congruence).
    destruct (in_dec Nat.eq_dec q (block_variables w)) as [J|J].
    + left. split; auto. left. apply (in_block_variables w) in J. destruct J as [bm [Ibm J]].
      assert (Jo : In q (b_out bm)) by (destruct J as [J|J]; auto; exfalso; eapply (wf_source w WF q t bm); eauto; eapply nth_error_In; eauto).
      apply In_nth_error in Ibm. destruct Ibm as [m Nm].
      assert (PJ : pipe_joins w p m n) by (exists bm, bn, q, t; auto 10).
      destruct (runtime_blocks_ok w WF default lock_flag LS set_order SO o OUT) as [rt [_ Cr]].
      destruct (in_dec Nat.eq_dec m rt) as [Z|Z].
      * left. eapply Cm; eauto. apply Cr. auto.
      * right. destruct (s_pipe s p) eqn:Sp; auto. exfalso. apply Z, Cr, Cl.
        eapply (g_src _ _ _ _ (i_good _ _ _ _ _ I)); eauto. congruence.
    + right. exists q, t. split; auto. right. split; auto. apply in_map_iff. exists (q, t). split; auto. eapply nth_error_In; eauto. }
  intros qs Sq. apply sim_serves with (K := K'); auto; apply EN; intros x J; apply in_or_app; auto.
Qed.

Lemma run_shown user s : NoDup (map fst user) ->
  run w default lock_flag type_ok evaluate set_order user = Ok s ->
  exists r, to_workflow_run s = Ok r /\
    forall qs, (forall q, In q qs -> is_show q) -> same_shown (foldM serve qs (s, [])) (foldM serve qs (r, [])).
Proof.
  intros ND R. pose proof (run_good w WF default lock_flag LS type_ok evaluate set_order SO o OUT user ND) as RG.
  rewrite R in RG. cbn zeta in RG. destruct RG as [I [[_ Cl] [Dn On]]].
  eapply state_shown; eauto.
  - unfold run in R. destruct (input_values w default lock_flag user) as [iv|]; cbn [bind] in R; [|discriminate].
    unfold start_run in R. destruct (activate_inputs false _) as [s0|]; cbn [bind] in R; [|discriminate].
    destruct (activate_inputs true s0) as [s1|] eqn:E1; cbn [bind] in R; [|discriminate].
    destruct (continue_run w default lock_flag type_ok evaluate set_order s1) as [s2|] eqn:E2; cbn [bind] in R; [|discriminate].
    destruct (completed w default lock_flag set_order s2) as [c|]; cbn [bind] in R; [|discriminate]. destruct c; [|discriminate].
    inversion R; subst. eapply (act_settled w WF default lock_flag type_ok evaluate set_order o Continue s1); [|exact E2].
    eapply (inputs_settled w WF); eauto.
  - intros i v N. apply (g_in_free _ _ _ _ (i_good _ _ _ _ _ I) i v N). apply On. eapply nth_error_In; eauto.
Qed.

(** ** What a display evaluates *)
Lemma variable_log f : forall v x (s s' : state), activate_variable f v x s = Ok s' -> evaluated s' = evaluated s.
Proof.
  induction f as [|f IH]; intros v x s s' E; simpl in E; [discriminate|].
  assert (Q : forall l s0 s1, foldM (fun (s : state) (ip : nat * (nat * nat)) => activate_variable f (snd (snd ip)) x (set_pipe (fst ip) x s)) l s0 = Ok s1 ->
     evaluated s1 = evaluated s0).
  { induction l as [|ip l IHl]; intros s0 s1 E0; simpl in E0; [inversion E0; auto|].
    destruct (activate_variable f (snd (snd ip)) x (set_pipe (fst ip) x s0)) as [s2|e] eqn:E2; simpl in E0; [|discriminate].
    apply IHl in E0. apply IH in E2. rewrite E0, E2. reflexivity. }
  destruct (foldM _ _ _) as [s1|e] eqn:E1; simpl in E; inversion E; subst. apply Q in E1. simpl. rewrite E1.
  destruct (is_output w v); reflexivity.
Qed.

Lemma foldM_keep {A T} (F : state -> A -> res state) (f : state -> T) l :
  (forall a s s', In a l -> F s a = Ok s' -> f s' = f s) -> forall s s', foldM F l s = Ok s' -> f s' = f s.
Proof.
  induction l as [|a l IH]; intros H s s' E; cbn [foldM] in E; [inversion E; auto|].
  destruct (F s a) as [s1|e] eqn:E1; cbn [bind] in E; [|discriminate].
  rewrite (IH (fun b s0 s2 J => H b s0 s2 (or_intror J)) s1 s' E). apply (H a); simpl; auto.
Qed.

Lemma input_log v x (s s' : state) : activate_input v x s = Ok s' -> evaluated s' = evaluated s.
Proof.
  unfold ExecModel.activate_input. destruct (type_ok v x); [|discriminate].
  destruct (input_index w v) as [i|]; [|discriminate].
  destruct (activate_variable (fuel w) v x (set_iv i x s)) as [s1|e] eqn:E1; cbn [bind]; [|discriminate].
  apply variable_log in E1. intros E.
  rewrite (foldM_keep (fun s ip => activate_pipe w ip x s) (@evaluated V) (variable_output_pipes w v)) with (s := s1); auto.
  intros ip s2 s3 _ E3. apply variable_log in E3. rewrite E3. reflexivity.
Qed.

Lemma inputs_log c (s s' : state) : activate_inputs c s = Ok s' -> evaluated s' = evaluated s.
Proof.
  intros E. unfold ExecModel.activate_inputs in E. revert s s' E.
  apply (foldM_keep _ (@evaluated V)). intros [i v] s s' _ E.
  destruct (s_iv s i) as [x|]; [apply input_log in E; auto|].
  destruct (locked default lock_flag v) as [l|]; cbn [bind] in E; [|discriminate].
  destruct (default v) as [d|]; [apply input_log in E; auto|].
  destruct c; [discriminate|]. inversion E; auto.
Qed.

Lemma read_log ins : forall (s s' : state) xs, read_inputs w ins s = Ok (s', xs) -> evaluated s' = evaluated s.
Proof.
  induction ins as [|v ins IH]; intros s0 s1 xs E; [simpl in E; inversion E; auto|]. cbn [read_inputs] in E.
  destruct (read_input w v s0) as [x|]; cbn [bind] in E; [|discriminate].
  destruct (activate_variable (fuel w) v x s0) as [s2|] eqn:E2; cbn [bind] in E; [|discriminate].
  destruct (read_inputs w ins s2) as [[s3 zs]|] eqn:E3; cbn [bind fst snd] in E; [|discriminate]. inversion E; subst.
  apply IH in E3. apply variable_log in E2. congruence.
Qed.

Lemma block_log n (s s' : state) ys : evaluate_block_values w evaluate n s = Ok (s', ys) -> evaluated s' = evaluated s ++ [n].
Proof.
  unfold evaluate_block_values. destruct (nth_error (blocks w) n) as [b|]; [|discriminate].
  destruct (read_inputs w (b_in b) s) as [[s1 xs]|] eqn:E1; cbn [bind fst snd]; [|discriminate].
  destruct (evaluate n xs) as [zs|]; cbn [bind]; [|discriminate].
  apply read_log in E1. unfold activate_block.
  destruct (foldM _ (combine (b_out b) zs) (log_block n s1)) as [s2|] eqn:E2; cbn [bind]; [|discriminate].
  intros E. inversion E; subst. simpl.
  apply (foldM_keep _ (@evaluated V)) in E2; [rewrite E2; simpl; rewrite E1; reflexivity|].
  intros a s3 s4 _ E4. eapply variable_log; eauto.
Qed.

Lemma all_log bs : forall (s : state) ev r, evaluate_all w evaluate bs s ev = Ok r -> evaluated (fst r) = evaluated s ++ bs.
Proof.
  induction bs as [|b bs IH]; intros s ev r E; cbn [evaluate_all] in E; [inversion E; subst; simpl; rewrite app_nil_r; auto|].
  destruct (evaluate_block_values w evaluate b s) as [[s1 ys]|] eqn:E1; cbn [bind fst snd] in E; [|discriminate].
  apply block_log in E1. apply IH in E. rewrite E, E1, <- app_assoc. reflexivity.
Qed.

Lemma rounds_log n bs : forall (s : state) ev r, branch_rounds n bs s ev = Ok r ->
  exists l, evaluated (fst r) = evaluated s ++ l /\ incl l bs.
Proof.
  induction n as [|n IH]; intros s ev r E; cbn [BranchModel.branch_rounds] in E.
  - inversion E; subst. exists []. rewrite app_nil_r. split; auto. intros x [].
  - destruct (Nat.eqb (List.length ev) (List.length bs)).
    + inversion E; subst. exists []. rewrite app_nil_r. split; auto. intros x [].
    + destruct (activable_blocks s) as [act|]; cbn [bind] in E; [|discriminate].
      destruct (evaluate_all w evaluate _ s ev) as [[s1 e1]|] eqn:E1; cbn [bind fst snd] in E; [|discriminate].
      apply all_log in E1. apply IH in E. destruct E as [l [El Il]]. simpl in E1. rewrite E1, <- app_assoc in El.
      eexists. split; [exact El|]. apply incl_app; auto. intros x J. apply filter_In in J. tauto.
Qed.

Lemma branch_log bs (s : state) r : evaluate_branch bs s = Ok r ->
  exists l, evaluated (fst r) = evaluated s ++ l /\ incl l bs.
Proof.
  unfold BranchModel.evaluate_branch. destruct (activate_inputs false s) as [s1|] eqn:E1; cbn [bind]; [|discriminate].
  destruct (activable_blocks s1) as [act|]; cbn [bind]; [|discriminate]. destruct (existsb _ bs); [|discriminate].
  intros E. apply rounds_log in E. rewrite (inputs_log _ _ _ E1) in E. exact E.
Qed.

Lemma show_log known b (s : state) y s' : (forall c, In c known -> valid c) -> show known b s = Ok (y, s') ->
  exists c l, last_with selector known (selector b) c /\ evaluated s' = evaluated s ++ l /\ forall x, In x l -> leads_to w c x.
Proof.
  intros Hv. unfold BranchModel.show. destruct (b <? List.length (blocks w)); [|discriminate].
  destruct (branch_by_selector_ok w WF default lock_flag LS type_ok evaluate set_order SO o OUT selector known Hv) as [d [Ed Cd]].
  rewrite Ed. cbn [bind]. specialize (Cd (selector b)).
  destruct (get_branch (selector b) d) as [br|]; cbn [of_option bind]; [|discriminate].
  destruct Cd as [c [Lc [_ [Cb _]]]].
  destruct (evaluate_branch br s) as [r|] eqn:E; cbn [bind]; [|discriminate].
  destruct (lookup b (snd r)) as [ys|]; cbn [of_option bind]; [|discriminate].
  destruct (nth_error ys 0); cbn [of_option bind]; [|discriminate]. intros Q. inversion Q; subst.
  apply branch_log in E. destruct E as [l [El Il]]. exists c, l. split; auto. split; auto.
  intros x J. apply Cb. apply Il. auto.
Qed.

Lemma display_log b (s : state) y s' :
  block_display w default lock_flag type_ok evaluate set_order displays selector b s = Ok (y, s') ->
  exists c l, last_with selector displays (selector b) c /\ evaluated s' = evaluated s ++ l /\ forall x, In x l -> leads_to w c x.
Proof.
  unfold block_display. destruct (activate_inputs false s) as [s1|] eqn:E1; cbn [bind]; [|discriminate].
  intros E. apply show_log in E; auto. rewrite (inputs_log _ _ _ E1) in E. exact E.
Qed.
End B.

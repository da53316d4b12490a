(** Lemmas on the displays of a workflow run. *)
From Coq Require Import String Ascii Bool Arith ZArith DecimalString Lia Permutation List.
From Verif Require Import Base BaseProofs PyValue PathsModel PathsSpec PathsProofs ExecModel ExecSpec ExecStruct ExecRuntime ExecProofs ExecRun
  ExecSim BranchModel BranchSpec BranchProofs BranchEval BranchShow BranchRun ShownModel.
Import ListNotations.

Section Pipes.
Variable w : workflow.
Hypothesis WF : well_formed w.

Lemma nth_enumerate (l : list (nat * nat)) k i p : In (i, p) (combine (seq k (List.length l)) l) <-> (k <= i /\ nth_error l (i - k) = Some p).
Proof.
  revert k. induction l as [|a l IH]; intros k; simpl.
  - split; [tauto|]. intros [_ H]. destruct (i - k); discriminate.
  - rewrite IH. split.
    + intros [E|[L H]]; [inversion E; subst; rewrite Nat.sub_diag; auto|]. split; [lia|].
      replace (i - k) with (S (i - S k)) by lia. auto.
    + intros [L H]. destruct (Nat.eq_dec i k) as [->|D]; [rewrite Nat.sub_diag in H; simpl in H; inversion H; auto|].
      right. split; [lia|]. replace (i - k) with (S (i - S k)) in H by lia. auto.
Qed.

Lemma input_pipe_some v p src tgt : variable_input_pipe w v = Some (p, (src, tgt)) <-> tgt = v /\ nth_error (pipes w) p = Some (src, v).
Proof.
  unfold variable_input_pipe, enumerate. split.
  - intros H. apply find_some in H. destruct H as [I E]. simpl in E. apply Nat.eqb_eq in E. subst.
    apply nth_enumerate in I. rewrite Nat.sub_0_r in I. tauto.
  - intros [-> N]. destruct (List.find _ _) as [[i [a b]]|] eqn:F.
    + apply find_some in F. destruct F as [I E]. simpl in E. apply Nat.eqb_eq in E. subst b.
      apply nth_enumerate in I. rewrite Nat.sub_0_r in I. destruct I as [_ I].
      assert (i = p).
      { pose proof (wf_single w WF) as ND. rewrite NoDup_nth_error in ND. apply ND.
        - rewrite map_length. apply nth_error_Some. congruence.
        - rewrite !nth_error_map, I, N. reflexivity. }
      subst i. rewrite N in I. inversion I. reflexivity.
    + exfalso. assert (J : In (p, (src, v)) (combine (seq 0 (List.length (pipes w))) (pipes w)))
        by (apply nth_enumerate; rewrite Nat.sub_0_r; split; auto; lia).
      pose proof (find_none _ _ F _ J) as Z. simpl in Z. rewrite Nat.eqb_refl in Z. discriminate.
Qed.

Lemma input_pipe_none v : variable_input_pipe w v = None <-> ~ In v (map snd (pipes w)).
Proof.
  split.
  - intros H I. apply in_map_iff in I. destruct I as [[a b] [E I]]. simpl in E. subst b.
    apply In_nth_error in I. destruct I as [p N]. rewrite (proj2 (input_pipe_some v p a v)) in H; [discriminate|auto].
  - intros H. destruct (variable_input_pipe w v) as [[p [a b]]|] eqn:E; auto. exfalso. apply H.
    apply input_pipe_some in E. destruct E as [-> N]. apply in_map_iff. exists (a, v). split; auto. eapply nth_error_In; eauto.
Qed.

End Pipes.

Section B.
Context {V : Type}.
Variable w : workflow.
Hypothesis WF : well_formed w.
Variable default : nat -> option V.
Variable lock_flag : nat -> bool.
Hypothesis LS : locks_sound default lock_flag.
Variable type_ok : nat -> V -> bool.
Variable evaluate : nat -> list V -> res (list V).
Variable set_order : nat -> list nat -> list nat.
Hypothesis SO : forall b l, Permutation (set_order b l) l.
Variable o : nat.
Hypothesis OUT : output w = Some o.
Variable selector : nat -> string.
Variables displays exports : list nat.
Hypothesis VD : forall c, In c displays -> c < List.length (blocks w).
Hypothesis VE : forall c, In c exports -> c < List.length (blocks w).

Notation state := (state V).
Notation memorized_pipes := (memorized_pipes w default lock_flag set_order displays exports).
Notation to_workflow_run := (to_workflow_run w default lock_flag type_ok set_order displays exports).
Notation activate_inputs := (activate_inputs w default lock_flag type_ok).
Notation block_display := (block_display w default lock_flag type_ok evaluate set_order displays selector).
Notation show := (show w default lock_flag type_ok evaluate set_order selector).
Notation from_input := (from_input w).
Notation into := (into w).
Notation run := (run w default lock_flag type_ok evaluate set_order).

Lemma memorized_first memo b bl v ins p src : memorized_pipes = Ok memo -> In b displays -> nth_error (blocks w) b = Some bl ->
  b_in bl = v :: ins -> nth_error (pipes w) p = Some (src, v) -> In p memo.
Proof.
  intros E I N Bi P. unfold BranchModel.memorized_pipes in E.
  destruct (mapM _ displays) as [first|] eqn:E1; cbn [bind] in E; [|discriminate].
  destruct (mapM _ (displays ++ exports)) as [rest|] eqn:E2; cbn [bind] in E; [|discriminate]. inversion E; subst.
  apply in_or_app. left. apply in_concat. clear - WF E1 I N Bi P. revert first E1. induction displays as [|d ds IH]; intros first E1; [destruct I|].
  cbn [mapM] in E1. destruct (of_option IndexError (nth_error (blocks w) d)) as [bd|] eqn:Ed; cbn [bind] in E1; [|discriminate].
  destruct (mapM _ ds) as [fs|] eqn:Es; cbn [bind] in E1; [|discriminate]. inversion E1; subst.
  destruct I as [->|I].
  - rewrite N in Ed. simpl in Ed. inversion Ed; subst bd. eexists. split; [left; reflexivity|]. rewrite Bi.
    rewrite (proj2 (input_pipe_some w WF v p src v) (conj eq_refl P)). simpl. auto.
  - destruct (IH I fs eq_refl) as [x [Ix Jx]]. exists x. split; auto. right. auto.
Qed.

(** A completed state where only needed blocks ran, and the run made from it. *)
Lemma state_kept G s : inv w default evaluate G s -> settled w default type_ok s ->
  (forall n, In n (evaluated s) -> needed w n) -> (forall n, needed w n -> s_blk s n = true) -> all_given w s ->
  exists memo r K, memorized_pipes = Ok memo /\ to_workflow_run s = Ok r /\ sim K s r
  /\ (forall p, real_pipe w p -> In p memo \/ from_input p -> K p) /\ enough w K displays /\ enough w K exports.
Proof.
  intros I St Cl Dn On. unfold BranchModel.to_workflow_run.
  destruct (completed_ok w WF default lock_flag LS type_ok evaluate set_order SO G o OUT s) as [c [Ec Cc]].
  rewrite Ec. cbn [bind]. rewrite (proj2 Cc Dn). unfold workflow_run.
  destruct (memorized_ok w WF default lock_flag LS set_order SO o OUT displays exports VD VE) as [memo [Em Cm]]. rewrite Em. cbn [bind].
  set (K := fun p => In p memo \/ s_pipe s p = None).
  assert (S0 : sim K s (mkState (s_iv s) (s_var s) (s_blk s)
    (fun p => if memb Nat.eqb p memo then s_pipe s p else None) (s_out s) (evaluated s))).
  { constructor; simpl; auto. intros p [J|J].
    + apply (memb_In _ nat_eqb_iff) in J. rewrite J. reflexivity.
    + rewrite J. destruct (memb Nat.eqb p memo); reflexivity. }
  destruct (inputs_again w WF default lock_flag LS type_ok s false St (or_introl eq_refl)) as [s1 [E1 S1]].
  pose proof (sim_inputs w WF default lock_flag type_ok evaluate o K _ _ On S0) as Q. rewrite E1 in Q.
  destruct (activate_inputs false (mkState _ _ _ _ _ _)) as [r|]; [|contradiction]. destruct Q as [Q _].
  set (K' := fun p => (K p \/ from_input p) /\ real_pipe w p). exists memo, r, K'. split; auto. split; auto.
  assert (EN : forall known, incl known (displays ++ exports) -> enough w K' known).
  { intros known INC c0 n p Ic L [bn [q [t [N [It P]]]]].
    assert (RP : real_pipe w p) by (unfold real_pipe; apply nth_error_Some; congruence).
    destruct (in_dec Nat.eq_dec q (block_variables w)) as [J|J].
    + left. split; auto. left. apply (in_block_variables w) in J. destruct J as [bm [Ibm J]].
      assert (Jo : In q (b_out bm)) by (destruct J as [J|J]; auto; exfalso; eapply (wf_source w WF q t bm); eauto; eapply nth_error_In; eauto).
      apply In_nth_error in Ibm. destruct Ibm as [m Nm].
      assert (PJ : pipe_joins w p m n) by (exists bm, bn, q, t; auto 10).
      destruct (runtime_blocks_ok w WF default lock_flag LS set_order SO o OUT) as [rt [_ Cr]].
      destruct (in_dec Nat.eq_dec m rt) as [Z|Z].
      * left. eapply Cm; eauto. apply Cr. auto.
      * right. destruct (s_pipe s p) eqn:Sp; auto. exfalso. apply Z, Cr, Cl.
        eapply (g_src _ _ _ _ (i_good _ _ _ _ _ I)); eauto. congruence.
    + right. exists q, t. split; auto. right. split; auto. apply in_map_iff. exists (q, t). split; auto. eapply nth_error_In; eauto. }
  split; [|split; [|split; apply EN; intros x J; apply in_or_app; auto]].
  - apply sim_trans with s1; [eapply sim_sub; [|exact S1]|eapply sim_sub; [|exact Q]]; intros p [? ?]; auto.
  - intros p RP [J|J]; split; auto. left. left. auto.
Qed.

Lemma run_state user s : NoDup (map fst user) -> run user = Ok s ->
  inv w default evaluate (given_by w default lock_flag user) s /\ settled w default type_ok s
  /\ (forall n, In n (evaluated s) -> needed w n) /\ (forall n, needed w n -> s_blk s n = true) /\ all_given w s.
Proof.
  intros ND R. pose proof (run_good w WF default lock_flag LS type_ok evaluate set_order SO o OUT user ND) as RG.
  rewrite R in RG. cbn zeta in RG. destruct RG as [I [[_ Cl] [Dn On]]].
  split; auto. split; [|split; auto; split; auto].
  - unfold ExecModel.run in R. destruct (input_values w default lock_flag user) as [iv|]; cbn [bind] in R; [|discriminate].
    unfold start_run in R. destruct (activate_inputs false _) as [s0|]; cbn [bind] in R; [|discriminate].
    destruct (activate_inputs true s0) as [s1|] eqn:E1; cbn [bind] in R; [|discriminate].
    destruct (continue_run w default lock_flag type_ok evaluate set_order s1) as [s2|] eqn:E2; cbn [bind] in R; [|discriminate].
    destruct (completed w default lock_flag set_order s2) as [c|]; cbn [bind] in R; [|discriminate]. destruct c; [|discriminate].
    inversion R; subst. eapply (act_settled w WF default lock_flag type_ok evaluate set_order o Continue s1); [|exact E2].
    eapply (inputs_settled w WF); eauto.
  - intros i v N. apply (g_in_free _ _ _ _ (i_good _ _ _ _ _ I) i v N). apply On. eapply nth_error_In; eauto.
Qed.

(** What is fed by a pipe once a run is complete. *)
Definition computed (src : nat) : Prop :=
  is_input w src \/ exists n bn, needed w n /\ nth_error (blocks w) n = Some bn /\ In src (b_out bn).

Lemma source_kind p src tgt : nth_error (pipes w) p = Some (src, tgt) ->
  is_input w src \/ exists n bn, nth_error (blocks w) n = Some bn /\ In src (b_out bn).
Proof.
  intros P. destruct (in_dec Nat.eq_dec src (block_variables w)) as [J|J].
  - right. apply (in_block_variables w) in J. destruct J as [bm [Ibm J]].
    assert (Jo : In src (b_out bm)) by (destruct J as [J|J]; auto; exfalso; eapply (wf_source w WF src tgt bm); eauto; eapply nth_error_In; eauto).
    apply In_nth_error in Ibm. destruct Ibm as [m Nm]. eauto.
  - left. right. split; auto. apply in_map_iff. exists (src, tgt). split; auto. eapply nth_error_In; eauto.
Qed.

Lemma state_pipe G s : inv w default evaluate G s -> settled w default type_ok s ->
  (forall n, In n (evaluated s) -> needed w n) -> (forall n, needed w n -> s_blk s n = true) -> all_given w s ->
  forall p src tgt, nth_error (pipes w) p = Some (src, tgt) ->
  forall x, s_pipe s p = Some x <-> computed src /\ has_value w G evaluate src x.
Proof.
  intros I St Cl Dn On p src tgt P x. assert (Gd := i_good _ _ _ _ _ I). split.
  - intros E. split; [|eapply (g_pipe _ _ _ _ Gd); eauto].
    destruct (source_kind p src tgt P) as [J|[n [bn [N J]]]]; [left; auto|right]. exists n, bn. split; auto.
    apply Cl. eapply (g_src _ _ _ _ Gd); eauto. congruence.
  - intros [[J|[n [bn [Nn [N J]]]]] H].
    + assert (J' := J). apply (inputs_In w WF) in J'. apply In_nth_error in J'. destruct J' as [i Ni].
      specialize (St i src Ni). specialize (On i src Ni). unfold settled_at in St. destruct (s_iv s i) as [y|]; [|congruence].
      destruct St as [_ [_ St]]. destruct (St p tgt P) as [_ Sp]. rewrite Sp. f_equal.
      eapply (hv_functional w WF evaluate G); [|exact H]. eapply (g_pipe _ _ _ _ Gd); eauto.
    + apply (pipe_value w WF evaluate G s p src tgt n bn Gd Dn P Nn N J). auto.
Qed.

Lemma run_pipe user s r : NoDup (map fst user) -> run user = Ok s -> to_workflow_run s = Ok r ->
  forall b bl v ins p src, In b displays -> nth_error (blocks w) b = Some bl -> b_in bl = v :: ins ->
  nth_error (pipes w) p = Some (src, v) ->
  forall x, s_pipe r p = Some x <-> computed src /\ has_value w (given_by w default lock_flag user) evaluate src x.
Proof.
  intros ND R E b bl v ins p src Ib Nb Bi P x.
  destruct (run_state user s ND R) as [I [St [Cl [Dn On]]]].
  destruct (state_kept _ s I St Cl Dn On) as [memo [r' [K [Em [Er [S [HK _]]]]]]]. rewrite E in Er. inversion Er; subst r'.
  rewrite <- (m_pipe _ _ _ S); [eapply state_pipe; eauto|]. apply HK; [unfold real_pipe; apply nth_error_Some; congruence|].
  left. eapply memorized_first; eauto.
Qed.

Lemma rounds_ready G n bs : forall s ev,
  inv w default evaluate G s -> sound_results w evaluate G ev -> NoDup (map fst ev) ->
  (forall m, lookup m ev <> None -> ready w m s) ->
  forall s' ev', branch_rounds w default lock_flag evaluate set_order n bs s ev = Ok (s', ev') ->
  forall m, lookup m ev' <> None -> ready w m s'.
Proof.
  induction n as [|n IH]; intros s ev I Sn ND R s' ev' E; cbn [BranchModel.branch_rounds] in E; [inversion E; subst; auto|].
  destruct (Nat.eqb (List.length ev) (List.length bs)); [inversion E; subst; auto|].
  destruct (activable_ok w WF default lock_flag LS type_ok evaluate set_order SO G o OUT s) as [l [El Cl]]. rewrite El in E. cbn [bind] in E.
  set (next := filter _ bs) in E.
  assert (Hn : forall m, In m next -> ready w m s).
  { intros m J. apply filter_In in J. destruct J as [J Q]. apply andb_true_iff in Q. destruct Q as [Q _].
    apply (memb_In _ nat_eqb_iff), Cl in Q. tauto. }
  pose proof (evaluate_all_good w WF default type_ok evaluate G o next s ev I Sn ND Hn) as EA.
  destruct (evaluate_all w evaluate next s ev) as [[s1 ev1]|e]; cbn [bind fst snd] in E; [|discriminate].
  destruct EA as [I1 [Gr1 [S1 [N1 [Iv1 [K1 _]]]]]].
  eapply IH; [exact I1|exact S1|exact N1| |exact E].
  intros m Q. apply K1 in Q. apply (ready_grows w m s s1 Gr1). destruct Q; auto.
Qed.

Lemma show_ready G known b s y s' : inv w default evaluate G s -> show known b s = Ok (y, s') -> ready w b s'.
Proof.
  intros I. unfold BranchModel.show. destruct (b <? List.length (blocks w))%nat; [|discriminate].
  destruct (branch_by_selector _ _ _ _ _ known) as [d|]; cbn [bind]; [|discriminate].
  destruct (get_branch (selector b) d) as [br|]; cbn [of_option bind]; [|discriminate].
  destruct (BranchModel.evaluate_branch _ _ _ _ _ _ br s) as [[s2 ev]|] eqn:E; cbn [bind fst snd]; [|discriminate].
  destruct (lookup b ev) as [ys|] eqn:Lk; cbn [of_option bind]; [|discriminate].
  destruct (nth_error ys 0); cbn [of_option bind]; [|discriminate]. intros Q. inversion Q; subst.
  unfold BranchModel.evaluate_branch in E.
  pose proof (activate_inputs_inv w WF default lock_flag LS type_ok evaluate G s I) as AI.
  destruct (activate_inputs false s) as [s1|]; cbn [bind] in E; [|discriminate]. destruct AI as [I1 _].
  destruct (activable_blocks _ _ _ _ s1) as [act|]; cbn [bind] in E; [|discriminate].
  destruct (existsb _ br); [|discriminate].
  eapply (rounds_ready G _ br s1 []); [exact I1| | | |exact E|rewrite Lk; discriminate].
  - intros n zs Z. discriminate.
  - constructor.
  - intros m Z. exfalso. apply Z. reflexivity.
Qed.

Lemma display_result user s r : NoDup (map fst user) -> run user = Ok s -> to_workflow_run s = Ok r ->
  forall b y r', block_display b r = Ok (y, r') ->
  (exists c, last_with selector displays (selector b) c /\ leads_to w c b)
  /\ exists ys, block_result w (given_by w default lock_flag user) evaluate b ys /\ nth_error ys 0 = Some y.
Proof.
  intros ND R E b y r' D.
  destruct (run_state user s ND R) as [I [St [Cl [Dn On]]]].
  destruct (state_kept _ s I St Cl Dn On) as [memo [r0 [K [Em [Er [S [HK [ED _]]]]]]]]. rewrite E in Er. inversion Er; subst r0.
  unfold BranchModel.block_display in D.
  pose proof (sim_inputs w WF default lock_flag type_ok evaluate o K s r On S) as Q.
  pose proof (activate_inputs_inv w WF default lock_flag LS type_ok evaluate _ s I) as AI.
  destruct (activate_inputs false s) as [s1|e], (activate_inputs false r) as [r1|e']; cbn [bind] in D; try discriminate; try contradiction.
  destruct Q as [Q A1]. destruct AI as [I1 _].
  pose proof (sim_show w WF default lock_flag LS type_ok evaluate set_order SO o OUT selector _ displays b s1 r1 VD (enough_more w K displays ED) A1 Q) as W.
  pose proof (show_good w WF default lock_flag LS type_ok evaluate set_order SO o OUT selector _ displays b s1 VD I1) as SG.
  rewrite D in W. destruct (show displays b s1) as [[y' s2]|]; [|contradiction]. destruct W as [-> [W A2]].
  destruct SG as [_ [_ [_ [A B]]]]. auto.
Qed.

Lemma display_pipe user s r : NoDup (map fst user) -> run user = Ok s -> to_workflow_run s = Ok r ->
  forall b bl v ins p src y r', In b displays -> nth_error (blocks w) b = Some bl -> b_in bl = v :: ins ->
  nth_error (pipes w) p = Some (src, v) -> block_display b r = Ok (y, r') ->
  exists x, s_pipe r' p = Some x /\ has_value w (given_by w default lock_flag user) evaluate src x.
Proof.
  intros ND R E b bl v ins p src y r' Ib Nb Bi P D.
  destruct (run_state user s ND R) as [I [St [Cl [Dn On]]]].
  destruct (state_kept _ s I St Cl Dn On) as [memo [r0 [K [Em [Er [S [HK [ED _]]]]]]]]. rewrite E in Er. inversion Er; subst r0.
  unfold BranchModel.block_display in D.
  pose proof (sim_inputs w WF default lock_flag type_ok evaluate o K s r On S) as Q.
  pose proof (activate_inputs_inv w WF default lock_flag LS type_ok evaluate _ s I) as AI.
  destruct (activate_inputs false s) as [s1|e], (activate_inputs false r) as [r1|e']; cbn [bind] in D; try discriminate; try contradiction.
  destruct Q as [Q A1]. destruct AI as [I1 _].
  pose proof (sim_show w WF default lock_flag LS type_ok evaluate set_order SO o OUT selector _ displays b s1 r1 VD (enough_more w K displays ED) A1 Q) as W.
  pose proof (show_good w WF default lock_flag LS type_ok evaluate set_order SO o OUT selector _ displays b s1 VD I1) as SG.
  pose proof (show_ready (given_by w default lock_flag user) displays b s1) as SHR.
  rewrite D in W. destruct (show displays b s1) as [[y' s2]|]; [|contradiction]. specialize (SHR _ _ I1 eq_refl). destruct W as [-> [W A2]].
  destruct SG as [I2 [_ [_ [[c [Lc Lb]] [ys [BR _]]]]]].
  assert (IP : into p b). { exists bl, src, v. rewrite Bi. simpl. auto. }
  assert (Kp : K p). { destruct (ED c b p (last_with_In _ _ _ _ Lc) Lb IP) as [J|J]; auto. apply HK; auto.
    unfold real_pipe. apply nth_error_Some. congruence. }
  rewrite <- (m_pipe _ _ _ W); auto.
  destruct SHR as [bl' [Nb' Rd]]. rewrite Nb in Nb'. inversion Nb'; subst bl'. rewrite Bi in Rd.
  pose proof (g_in_pipe _ _ _ _ (i_good _ _ _ _ _ I2) p src v P (Rd v (or_introl eq_refl))) as NN.
  destruct (s_pipe s2 p) as [x|] eqn:Sp; [|congruence]. exists x. split; auto.
  eapply (g_pipe _ _ _ _ (i_good _ _ _ _ _ I2)); eauto.
Qed.
End B.

Section Settings.
Variable w : workflow.
Hypothesis WF : well_formed w.
Variable display_of : nat -> option display_block.
Notation displays := (displays w display_of).
Notation blocks_display_settings := (blocks_display_settings w display_of).

Lemma displays_In b : In b displays <-> b < List.length (blocks w) /\ display_of b <> None.
Proof.
  unfold ShownModel.displays. rewrite filter_In, in_seq. split.
  - intros [L H]. split; [lia|]. destruct (display_of b); congruence.
  - intros [L H]. split; [lia|]. destruct (display_of b); congruence.
Qed.

(** The setting of one block that has one. *)
Definition setting_of (b : nat) (d : display_block) (name : string) (p : nat) : setting :=
  {| s_selector := name; s_type := block_type d; s_method := "block_display"; s_block := Some b;
     s_path := String.append "#/values/" (dec p); s_serialize := serialize_flag d; s_load := load_flag d |}.

Definition one (b : nat) : res setting :=
    let* bl := of_option IndexError (nth_error (blocks w) b) in
    let* d := of_option AttributeError (display_of b) in
    let* path := reference_path w bl in
    let* s := block_settings d b path in
    Ok {| s_selector := block_selector display_of b; s_type := s_type s; s_method := s_method s; s_block := s_block s;
          s_path := s_path s; s_serialize := s_serialize s; s_load := s_load s |}.

Lemma one_ok b bl d v ins src p name : nth_error (blocks w) b = Some bl -> display_of b = Some d -> b_in bl = v :: ins ->
  nth_error (pipes w) p = Some (src, v) -> chosen d = ViewType name -> one b = Ok (setting_of b d name p).
Proof.
  intros N D Bi P C. unfold one. rewrite N, D. cbn [of_option bind]. unfold reference_path. rewrite Bi.
  rewrite (proj2 (input_pipe_some w WF v p src v) (conj eq_refl P)). cbn [bind fst].
  unfold block_settings. rewrite C. cbn [bind]. unfold setting_of, block_selector. rewrite D, C. reflexivity.
Qed.

Lemma one_unpiped b bl d v ins : nth_error (blocks w) b = Some bl -> display_of b = Some d -> b_in bl = v :: ins ->
  ~ In v (map snd (pipes w)) -> one b = Err ValueError.
Proof.
  intros N D Bi P. unfold one. rewrite N, D. cbn [of_option bind]. unfold reference_path. rewrite Bi.
  rewrite (proj2 (input_pipe_none w WF v) P). reflexivity.
Qed.

Lemma one_legacy b bl d v ins : nth_error (blocks w) b = Some bl -> display_of b = Some d -> b_in bl = v :: ins ->
  In v (map snd (pipes w)) -> (forall name, chosen d <> ViewType name) -> one b = Err AttributeError.
Proof.
  intros N D Bi P C. unfold one. rewrite N, D. cbn [of_option bind]. unfold reference_path. rewrite Bi.
  destruct (variable_input_pipe w v) as [[p [a c]]|] eqn:E; [|apply (input_pipe_none w WF) in E; contradiction]. cbn [bind fst].
  unfold block_settings. destruct (chosen d); auto. exfalso. eapply C; eauto.
Qed.

Lemma one_selector x st : one x = Ok st -> s_selector st = block_selector display_of x.
Proof.
  unfold one. destruct (of_option IndexError (nth_error (blocks w) x)) as [bl|]; cbn [bind]; [|discriminate].
  destruct (of_option AttributeError (display_of x)) as [d|]; cbn [bind]; [|discriminate].
  destruct (reference_path w bl) as [path|]; cbn [bind]; [|discriminate].
  destruct (block_settings d x path) as [s|]; cbn [bind]; [|discriminate]. intros E. inversion E. reflexivity.
Qed.

Lemma settings_mapM : blocks_display_settings = mapM one displays.
Proof. reflexivity. Qed.
End Settings.

Section Path.
Variable w : workflow.
Variable int_of : string -> option Z.
Variable isdigit : string -> bool.
Variable generic : list string -> res val.
Variable fuel : nat.
Local Open Scope string_scope.

Notation get_from_path := (get_from_path w int_of isdigit generic fuel).

Hypothesis DI : forall n, int_of (dec n) = Some (Z.of_nat n).
Hypothesis DD : forall n, isdigit (dec n) = true.

Lemma dec_chars u c : In c (list_ascii_of_string (NilEmpty.string_of_uint u)) ->
  In c (list_ascii_of_string "0123456789").
Proof.
  induction u; simpl; intros H; try contradiction;
    (destruct H as [<-|H]; [clear; simpl; tauto|apply IHu in H; simpl in H; exact H]).
Qed.

Lemma dec_digits n c : In c (list_ascii_of_string (dec n)) -> In c (list_ascii_of_string "0123456789").
Proof.
  unfold dec, NilZero.string_of_uint. destruct (Nat.to_uint n) eqn:E; [simpl; tauto|..]; apply dec_chars.
Qed.

Lemma dec_nonempty n : exists c s, dec n = String c s.
Proof. unfold dec, NilZero.string_of_uint. destruct (Nat.to_uint n); simpl; eauto. Qed.

Lemma dec_no_slash n : no_slash (dec n).
Proof. intros H. apply dec_digits in H. simpl in H. intuition discriminate. Qed.

Lemma dec_lstrip n r : lstrip (dec n ++ r) = dec n ++ r.
Proof.
  destruct (dec_nonempty n) as [c [s E]]. pose proof (dec_digits n c) as H. rewrite E in *. simpl in *.
  specialize (H (or_introl eq_refl)).
  repeat (destruct H as [<-|H]; [reflexivity|]). destruct H.
Qed.

Lemma path_value (s : state val) p : p < List.length (pipes w) ->
  get_from_path s ("#/values/" ++ dec p) = of_option KeyError (s_pipe s p).
Proof.
  intros L. unfold ShownModel.get_from_path, in_run, segments.
  change (lstrip ("#/values/" ++ dec p)) with ("values" ++ String "/" (dec p)).
  rewrite (split_slash "values" (dec p)) by (intros H; simpl in H; intuition discriminate).
  rewrite (split_no_slash (dec p) (dec_no_slash p)). rewrite String.eqb_refl, DD, DI.
  change ("#/values/" ++ dec p) with ("#" ++ String "/" ("values" ++ String "/" (dec p))).
  rewrite (split_slash "#") by (intros H; simpl in H; intuition discriminate).
  rewrite (split_slash "values") by (intros H; simpl in H; intuition discriminate).
  rewrite (split_no_slash (dec p) (dec_no_slash p)). rewrite String.eqb_refl, DI. cbn [of_option bind].
  rewrite (proj2 (py_index_iff (List.length (pipes w)) (Z.of_nat p) p)); [|split; auto]. cbn [of_option bind].
  destruct (s_pipe s p); reflexivity.
Qed.

Lemma concat_split r : String.concat "/" (PathsModel.split r) = r.
Proof.
  induction r as [|c r IH]; [reflexivity|]. cbn [PathsModel.split]. destruct (split_nonempty r) as [x [l E]]. rewrite E in *.
  destruct (Ascii.eqb_spec c "/") as [->|N].
  - change (String.concat "/" ("" :: x :: l)) with (String "/" (String.concat "/" (x :: l))). congruence.
  - transitivity (String c (String.concat "/" (x :: l))); [destruct l; reflexivity|congruence].
Qed.

Lemma path_below (s : state val) p r : p < List.length (pipes w) ->
  get_from_path s ("#/values/" ++ dec p ++ "/" ++ r) =
  match s_pipe s p with
  | None => Err KeyError
  | Some v => get_in_object_from_path int_of isdigit fuel v ("#/" ++ r) true
  end.
Proof.
  intros L. unfold ShownModel.get_from_path, in_run, segments.
  change (lstrip ("#/values/" ++ dec p ++ "/" ++ r)) with ("values" ++ String "/" (dec p ++ String "/" r)).
  rewrite (split_slash "values") by (intros H; simpl in H; intuition discriminate).
  rewrite (split_slash (dec p) _ (dec_no_slash p)). rewrite String.eqb_refl, DD, DI.
  change ("#/values/" ++ dec p ++ "/" ++ r) with ("#" ++ String "/" ("values" ++ String "/" (dec p ++ String "/" r))).
  rewrite (split_slash "#") by (intros H; simpl in H; intuition discriminate).
  rewrite (split_slash "values") by (intros H; simpl in H; intuition discriminate).
  rewrite (split_slash (dec p) _ (dec_no_slash p)).
  rewrite String.eqb_refl, DI. cbn [of_option bind].
  rewrite (proj2 (py_index_iff (List.length (pipes w)) (Z.of_nat p) p)); [|split; auto]. cbn [of_option bind].
  destruct (s_pipe s p); [|reflexivity]. cbn [of_option bind].
  pose proof (concat_split r) as C. destruct (split_nonempty r) as [x [l E]]. rewrite E in *. rewrite C. reflexivity.
Qed.

Lemma path_element (s : state val) p i : p < List.length (pipes w) ->
  get_from_path s ("#/values/" ++ dec p ++ "/" ++ dec i) =
  match s_pipe s p with
  | None => Err KeyError
  | Some v => get_in_object_from_path int_of isdigit fuel v ("#/" ++ dec i) true
  end.
Proof. apply path_below. Qed.

Lemma element_of v l i x : fuel <> 0 -> v = VList l \/ v = VTuple l -> nth_error l i = Some x ->
  get_in_object_from_path int_of isdigit fuel v ("#/" ++ dec i) true = Ok x.
Proof.
  intros F E N. unfold get_in_object_from_path, segments.
  change (lstrip ("#/" ++ dec i)) with (lstrip (dec i)).
  assert (lstrip (dec i) = dec i) as ->.
  { pose proof (dec_lstrip i "") as H. assert (A : forall a, a ++ "" = a) by (induction a; simpl; congruence). rewrite A in H. exact H. }
  rewrite (split_no_slash (dec i) (dec_no_slash i)). destruct fuel as [|n]; [congruence|].
  cbn [get_at foldM]. 
  assert (L : i < List.length l) by (apply nth_error_Some; congruence).
  destruct E as [-> | ->]; cbn [snd bind PathsModel.find]; rewrite DI, (proj2 (py_index_iff (List.length l) (Z.of_nat i) i)) by auto;
    rewrite N; reflexivity.
Qed.
End Path.

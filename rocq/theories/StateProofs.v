(** Copies, saved states and their comparison. *)
From Coq Require Import String Bool ZArith Arith Lia Permutation List.
From Verif Require Import Base BaseProofs ExecModel ExecSpec ExecStruct ExecRuntime ExecProofs ExecRun ExecSim
  BranchModel BranchSpec BranchProofs BranchEval BranchShow BranchRun StateModel StateSpec.
Import ListNotations.

(** A loop that sets keys of a dictionary. *)
Lemma fold_upd {A T} (F : (nat -> T) -> A -> res (nat -> T)) (key : A -> nat) (val : A -> T) l :
  (forall a m, In a l -> F m a = Ok (upd m (key a) (val a))) -> NoDup (map key l) -> forall m0,
  exists m, foldM F l m0 = Ok m /\ (forall k, ~ In k (map key l) -> m k = m0 k) /\ (forall a, In a l -> m (key a) = val a).
Proof.
  induction l as [|a l IH]; intros H ND m0; cbn [foldM].
  - exists m0. split; auto. split; auto. intros a [].
  - rewrite (H a m0 (or_introl eq_refl)). cbn [bind]. simpl in ND. inversion ND as [|? ? NI ND']; subst.
    destruct (IH (fun b m J => H b m (or_intror J)) ND' (upd m0 (key a) (val a))) as [m [E [K W]]].
    exists m. split; auto. split.
    + intros k NK. rewrite K by (intros J; apply NK; simpl; auto). apply upd_other. intros ->. apply NK. simpl. auto.
    + intros b [<-|J]; auto. rewrite K by auto. apply upd_same.
Qed.

(** A loop that sets some keys of a dictionary. *)
Lemma fold_upd_some {A T} (F : (nat -> option T) -> A -> res (nat -> option T)) (key : A -> nat) (val : A -> option T) l :
  (forall a m, In a l -> F m a = Ok (match val a with Some x => upd m (key a) (Some x) | None => m end)) -> NoDup (map key l) -> forall m0,
  exists m, foldM F l m0 = Ok m /\ (forall k, ~ In k (map key l) -> m k = m0 k)
    /\ (forall a, In a l -> m (key a) = match val a with Some x => Some x | None => m0 (key a) end).
Proof.
  induction l as [|a l IH]; intros H ND m0; cbn [foldM].
  - exists m0. split; auto. split; auto. intros a [].
  - rewrite (H a m0 (or_introl eq_refl)). cbn [bind]. simpl in ND. inversion ND as [|? ? NI ND']; subst.
    destruct (IH (fun b m J => H b m (or_intror J)) ND' (match val a with Some x => upd m0 (key a) (Some x) | None => m0 end)) as [m [E [K W]]].
    exists m. split; auto. split.
    + intros k NK. rewrite K by (intros J; apply NK; simpl; auto). destruct (val a); auto. apply upd_other. intros ->. apply NK. simpl. auto.
    + intros b [<-|J].
      * rewrite K by auto. destruct (val a); auto. apply upd_same.
      * rewrite (W b J). destruct (val b); auto. destruct (val a); auto. apply upd_other. intros E1. apply NI. rewrite <- E1. apply in_map; auto.
Qed.

Section B.
Context {V D : Type}.
Variable w : workflow.
Hypothesis WF : well_formed w.
Variable default : nat -> option V.
Variable lock_flag : nat -> bool.
Hypothesis LS : locks_sound default lock_flag.
Variable type_ok : nat -> V -> bool.
Variable evaluate : nat -> list V -> res (list V).
Variable set_order : nat -> list nat -> list nat.
Hypothesis SO : forall b l, Permutation (set_order b l) l.
Variable o : nat.
Hypothesis OUT : output w = Some o.
Variables displays exports : list nat.
Hypothesis VD : forall c, In c displays -> c < List.length (blocks w).
Hypothesis VE : forall c, In c exports -> c < List.length (blocks w).
Variable selector : nat -> string.
Variable ser : V -> res D.
Variable deser : D -> res V.
Variable file_input : nat -> bool.
Variable file_value : V -> bool.
Variable is_none : V -> bool.

Notation state := (state V).
Notation wstate := (@wstate V).
Notation activate_inputs := (activate_inputs w default lock_flag type_ok).
Notation activate_input := (activate_input w type_ok).
Notation memorized_pipes := (memorized_pipes w default lock_flag set_order displays exports).
Notation workflow_run := (workflow_run w default lock_flag type_ok set_order displays exports).
Notation construct := (construct w default lock_flag type_ok set_order displays exports).
Notation copy := (copy w default lock_flag type_ok set_order displays exports).
Notation to_dict := (to_dict w default lock_flag set_order displays exports ser file_input file_value is_none).
Notation dict_to_object := (dict_to_object w default lock_flag type_ok set_order displays exports deser).
Notation settled := (settled w default type_ok).

(** ** Activation of the inputs, completely *)
Record fed (l : list (nat * nat)) (s s' : state) : Prop := {
  f_iv : forall i v, In (i, v) l -> s_iv s' i = match s_iv s i with Some x => Some x | None => default v end;
  f_iv' : forall i, ~ In i (map fst l) -> s_iv s' i = s_iv s i;
  f_blk : s_blk s' = s_blk s; f_log : evaluated s' = evaluated s; f_out : s_out s' = s_out s;
  f_var : forall u, s_var s' u = true <-> s_var s u = true \/ exists i v, In (i, v) l /\ s_iv s' i <> None /\ (u = v \/ In (v, u) (pipes w));
  f_in : forall p v t i, nth_error (pipes w) p = Some (v, t) -> In (i, v) l ->
           s_pipe s' p = match s_iv s' i with Some x => Some x | None => s_pipe s p end;
  f_other : forall p q t, nth_error (pipes w) p = Some (q, t) -> (forall i, ~ In (i, q) l) -> s_pipe s' p = s_pipe s p }.

Definition typed (s : state) (i v : nat) : Prop :=
  match s_iv s i with Some x => type_ok v x = true | None => forall d, default v = Some d -> type_ok v d = true end.

Lemma fed_step l i v (s s1 s' : state) : (forall j u, In (j, u) ((i, v) :: l) -> nth_error (inputs w) j = Some u) ->
  ~ In i (map fst l) ->
  (s_iv s1 i = match s_iv s i with Some x => Some x | None => default v end) ->
  (forall j, j <> i -> s_iv s1 j = s_iv s j) ->
  s_blk s1 = s_blk s -> evaluated s1 = evaluated s -> s_out s1 = s_out s ->
  (forall u, s_var s1 u = true <-> s_var s u = true \/ s_iv s1 i <> None /\ (u = v \/ In (v, u) (pipes w))) ->
  (forall p q t, nth_error (pipes w) p = Some (q, t) ->
     s_pipe s1 p = if Nat.eqb q v then match s_iv s1 i with Some x => Some x | None => s_pipe s p end else s_pipe s p) ->
  fed l s1 s' -> fed ((i, v) :: l) s s'.
Proof.
  intros Hl NI A A' B C E F G [].
  assert (Ai : s_iv s' i = s_iv s1 i) by (apply f_iv'0; auto).
  assert (NV : forall j, ~ In (j, v) l).
  { intros j J. assert (j = i) by (eapply (inputs_index_inj w WF); [exact (Hl j v (or_intror J))|exact (Hl i v (or_introl eq_refl))]).
    subst. apply NI. apply in_map_iff. exists (i, v). auto. }
  constructor.
  - intros j u [J|J].
    + inversion J; subst. rewrite Ai. exact A.
    + rewrite (f_iv0 j u J). rewrite A'; auto. intros ->. apply NI. apply in_map_iff. exists (i, u). auto.
  - intros j NJ. simpl in NJ. rewrite f_iv'0 by tauto. apply A'. intros ->. tauto.
  - congruence.
  - congruence.
  - congruence.
  - intros u. rewrite f_var0, F. split.
    + intros [[H|[H K]]|[j [x [J [H K]]]]]; auto.
      * right. exists i, v. rewrite Ai. simpl. auto.
      * right. exists j, x. simpl. auto.
    + intros [H|[j [x [[J|J] [H K]]]]]; auto.
      * inversion J; subst. rewrite Ai in H. auto.
      * right. exists j, x. auto.
  - intros p q t j Np [J|J].
    + inversion J; subst. rewrite (f_other0 p q t Np NV), (G p q t Np), Nat.eqb_refl, Ai. reflexivity.
    + rewrite (f_in0 p q t j Np J). destruct (s_iv s' j); auto. rewrite (G p q t Np). destruct (Nat.eqb_spec q v); auto.
      subst. exfalso. exact (NV j J).
  - intros p q t Np NJ. rewrite (f_other0 p q t Np); [|intros j J; apply (NJ j); simpl; auto]. rewrite (G p q t Np).
    destruct (Nat.eqb_spec q v); auto. subst. exfalso. apply (NJ i). simpl. auto.
Qed.

Lemma inputs_fed_list l : (forall j u, In (j, u) l -> nth_error (inputs w) j = Some u) -> NoDup (map fst l) -> forall (s : state),
  match foldM (fun (s : state) iv => let (i, v) := iv : nat * nat in
           match s_iv s i with
           | Some x => activate_input v x s
           | None => let* l := locked default lock_flag v in
             match default v with Some d => activate_input v d s | None => Ok s end
           end) l s with
  | Ok s' => fed l s s' /\ (forall i v, In (i, v) l -> typed s i v)
  | Err e => e = TypeError /\ ~ (forall i v, In (i, v) l -> typed s i v)
  end.
Proof.
  induction l as [|[i v] l IH]; intros Hl ND s; cbn [foldM].
  - split; [|intros i v []]. constructor; auto; try contradiction.
    intros u. split; auto. intros [H|[i [v [[] _]]]]; auto.
  - simpl in ND. inversion ND as [|? ? NI ND']; subst.
    assert (N := Hl i v (or_introl eq_refl)).
    assert (Go : forall x (s1 : state), s_iv s i = Some x \/ (s_iv s i = None /\ default v = Some x) ->
       match (let* s1 := activate_input v x s in foldM (fun (s : state) iv => let (i, v) := iv : nat * nat in
           match s_iv s i with
           | Some x => activate_input v x s
           | None => let* l := locked default lock_flag v in
             match default v with Some d => activate_input v d s | None => Ok s end
           end) l s1) with
       | Ok s' => fed ((i, v) :: l) s s' /\ (forall j u, In (j, u) ((i, v) :: l) -> typed s j u)
       | Err e => e = TypeError /\ ~ (forall j u, In (j, u) ((i, v) :: l) -> typed s j u)
       end).
    { intros x _ Hx. pose proof (input_char w WF type_ok i v x s N) as IC.
      assert (Ty : typed s i v <-> type_ok v x = true).
      { unfold typed. destruct Hx as [->|[-> Dx]]; [tauto|]. split; auto. intros H d Dd. congruence. }
      destruct (type_ok v x).
      - destruct IC as [s1 [E1 [A [B [C [E [F G]]]]]]]. rewrite E1. cbn [bind].
        specialize (IH (fun j u J => Hl j u (or_intror J)) ND' s1).
        assert (Tl : forall j u, In (j, u) l -> (typed s1 j u <-> typed s j u)).
        { intros j u J. unfold typed. rewrite A, upd_other; [tauto|]. intros ->. apply NI. apply in_map_iff. exists (i, u). auto. }
        destruct (foldM _ l s1) as [s'|e].
        + destruct IH as [IH T]. split; [|intros j u [J|J]; [inversion J; subst; apply Ty; auto|apply (Tl j u J); auto]].
          apply fed_step with s1; auto.
          * rewrite A, upd_same. destruct Hx as [->|[-> Dx]]; auto.
          * intros j Dj. rewrite A. apply upd_other; auto.
          * intros u. rewrite F, A, upd_same. intuition discriminate.
          * intros p q t Np. rewrite (G p q t Np), A, upd_same. reflexivity.
        + destruct IH as [-> IH]. split; auto. intros T. apply IH. intros j u J. apply (Tl j u J). apply T. simpl. auto.
      - rewrite IC. cbn [bind]. split; auto. intros T. specialize (T i v (or_introl eq_refl)). apply Ty in T. discriminate. }
    destruct (s_iv s i) as [x|] eqn:Si; [apply (Go x s); auto|].
    rewrite (locked_ok default lock_flag LS). cbn [bind]. destruct (default v) as [d|] eqn:Dv; [apply (Go d s); auto|].
    cbn [bind]. specialize (IH (fun j u J => Hl j u (or_intror J)) ND' s).
    destruct (foldM _ l s) as [s'|e].
    + destruct IH as [IH T]. split.
      * apply fed_step with s; auto.
        -- rewrite Si, Dv. reflexivity.
        -- intros u. rewrite Si. intuition congruence.
        -- intros p q t Np. rewrite Si. destruct (Nat.eqb q v); reflexivity.
      * intros j u [J|J]; auto. inversion J; subst. unfold typed. rewrite Si. congruence.
    + destruct IH as [-> IH]. split; auto. intros T. apply IH. intros j u J. apply T. simpl. auto.
Qed.

Notation fed_all := (fed (enumerate (inputs w))).

Lemma inputs_fed (s : state) :
  match activate_inputs false s with
  | Ok s' => fed_all s s' /\ (forall i v, nth_error (inputs w) i = Some v -> typed s i v)
  | Err e => e = TypeError /\ ~ (forall i v, nth_error (inputs w) i = Some v -> typed s i v)
  end.
Proof.
  pose proof (inputs_fed_list (enumerate (inputs w)) (fun i v I => proj1 (enumerate_In _ i v) I) (enumerate_NoDup (inputs w)) s) as H.
  unfold ExecModel.activate_inputs. destruct (foldM _ _ s) as [s'|e].
  - destruct H as [H T]. split; auto. intros i v N. apply T. apply enumerate_In; auto.
  - destruct H as [-> H]. split; auto. intros T. apply H. intros i v I. apply T. apply enumerate_In; auto.
Qed.

(** ** States that agree but for the values of pipes *)
Notation given_pipe := (given_pipe w).

Lemma bool_iff (a b : bool) : (a = true <-> b = true) -> a = b.
Proof. destruct a, b; intuition. Qed.

Lemma refill (s r : state) : settled s -> sim (fun _ => False) s r ->
  exists r', activate_inputs false r = Ok r' /\ sim (given_pipe s) s r'
    /\ (forall p, real_pipe w p -> ~ given_pipe s p -> s_pipe r' p = s_pipe r p).
Proof.
  intros S H. pose proof (inputs_fed r) as F.
  assert (T : forall i v, nth_error (inputs w) i = Some v -> typed r i v).
  { intros i v N. specialize (S i v N). unfold settled_at in S. unfold typed. rewrite <- (m_iv _ _ _ H). destruct (s_iv s i); [tauto|]. congruence. }
  destruct (activate_inputs false r) as [r'|e]; [|exfalso; tauto]. destruct F as [F _]. exists r'. split; auto.
  assert (IV : forall i, s_iv s i = s_iv r' i).
  { intros i. destruct (nth_error (inputs w) i) as [v|] eqn:N.
    - rewrite (f_iv _ _ _ F i v) by (apply enumerate_In; auto). rewrite <- (m_iv _ _ _ H).
      specialize (S i v N). unfold settled_at in S. destruct (s_iv s i); auto.
    - rewrite (f_iv' _ _ _ F), <- (m_iv _ _ _ H); auto. intros J. apply in_map_iff in J. destruct J as [[j v] [E J]]. simpl in E. subst.
      apply enumerate_In in J. congruence. }
  split.
  - constructor; auto.
    + intros u. apply bool_iff. rewrite (f_var _ _ _ F), <- (m_var _ _ _ H). split; auto.
      intros [U|[i [v [J [Gi U]]]]]; auto. apply enumerate_In in J. specialize (S i v J). unfold settled_at in S. rewrite <- IV in Gi.
      destruct (s_iv s i) as [x|]; [|congruence]. destruct S as [_ [Sv Sp]]. destruct U as [->|U]; auto.
      apply In_nth_error in U. destruct U as [p Np]. apply (Sp p u Np).
    + intros b. rewrite (f_blk _ _ _ F). apply (m_blk _ _ _ H).
    + rewrite (f_out _ _ _ F). apply (m_out _ _ _ H).
    + rewrite (f_log _ _ _ F). apply (m_log _ _ _ H).
    + intros p [i [v [t [Ni [Np G]]]]]. rewrite (f_in _ _ _ F p v t i Np) by (apply enumerate_In; auto). rewrite <- IV.
      specialize (S i v Ni). unfold settled_at in S. destruct (s_iv s i) as [x|]; [|congruence]. apply (proj2 (proj2 S) p t Np).
  - intros p RP NG. destruct (real_pipe_nth w p RP) as [q [t Np]].
    destruct (in_dec Nat.eq_dec q (inputs w)) as [J|J].
    + apply In_nth_error in J. destruct J as [i Ni].
      rewrite (f_in _ _ _ F p q t i Np) by (apply enumerate_In; auto). rewrite <- IV. destruct (s_iv s i) eqn:Si; auto.
      exfalso. apply NG. exists i, q, t. rewrite Si. split; auto. split; auto. discriminate.
    + apply (f_other _ _ _ F p q t Np). intros i K. apply J. apply enumerate_In in K. eapply nth_error_In; eauto.
Qed.

Lemma mapM_concat {A B} (f : A -> res (list B)) l : (forall a, In a l -> exists r, f a = Ok r) ->
  exists ll, mapM f l = Ok ll /\ forall b, In b (concat ll) <-> exists a r, In a l /\ f a = Ok r /\ In b r.
Proof.
  induction l as [|a l IH]; intros H; cbn [mapM].
  - exists []. split; auto. intros b. simpl. split; [tauto|]. intros [a [r [[] _]]].
  - destruct (H a (or_introl eq_refl)) as [r Er]. rewrite Er. cbn [bind].
    destruct IH as [ll [El Cl]]; [intros; apply H; simpl; auto|]. rewrite El. cbn [bind]. eexists. split; [reflexivity|].
    intros b. simpl. rewrite in_app_iff, Cl. split.
    + intros [J|[c [r' [J [E K]]]]]; [exists a, r; auto|exists c, r'; auto].
    + intros [c [r' [[<-|J] [E K]]]]; [left; congruence|right; exists c, r'; auto].
Qed.

Lemma memorized : exists memo, memorized_pipes = Ok memo /\ forall p, In p memo <-> memorised w displays exports p.
Proof.
  unfold BranchModel.memorized_pipes.
  match goal with |- exists memo, bind (mapM ?f ?l) _ = _ /\ _ => destruct (mapM_concat f l) as [l1 [E1 C1]] end.
  { intros b I. specialize (VD b I). destruct (nth_error (blocks w) b) as [bl|] eqn:N; [|apply nth_error_None in N; lia].
    cbn [of_option bind]. eauto. }
  rewrite E1. cbn [bind].
  match goal with |- exists memo, bind (mapM ?f ?l) _ = _ /\ _ => destruct (mapM_concat f l) as [l2 [E2 C2]] end.
  { intros b I. assert (L : b < List.length (blocks w)) by (apply in_app_or in I; destruct I; auto).
    destruct (secondary_branch_ok w WF default lock_flag LS set_order SO o OUT b L) as [br [ps [Eb _]]]. rewrite Eb. cbn [bind]. eauto. }
  rewrite E2. cbn [bind]. eexists. split; [reflexivity|]. intros p. rewrite in_app_iff, C1, C2. unfold memorised.
  split; intros [H|H]; [left|right|left|right].
  - destruct H as [c [r [Ic [Er J]]]]. destruct (nth_error (blocks w) c) as [b|] eqn:N; cbn [of_option bind] in Er; [|discriminate].
    inversion Er; subst. destruct (b_in b) as [|t rest] eqn:Eb; [contradiction|].
    destruct (variable_input_pipe w t) as [[p' [q t']]|] eqn:P; [|contradiction]. destruct J as [<-|[]].
    apply (input_pipe_some w WF) in P. destruct P as [P ->]. exists c, b, t, rest, q. auto.
  - destruct H as [c [r [Ic [Er J]]]]. assert (L : c < List.length (blocks w)) by (apply in_app_or in Ic; destruct Ic; auto).
    destruct (secondary_branch_ok w WF default lock_flag LS set_order SO o OUT c L) as [br [ps [Eb [_ [_ Cp]]]]]. rewrite Eb in Er.
    inversion Er; subst. apply Cp in J. destruct J as [m [n [? [? ?]]]]. exists c, n, m. auto.
  - destruct H as [c [b [t [rest [q [Ic [N [Eb Np]]]]]]]]. exists c, [p]. split; auto. rewrite N. cbn [of_option bind]. rewrite Eb.
    assert (P : variable_input_pipe w t = Some (p, (q, t))) by (apply (input_pipe_some w WF); auto). rewrite P. simpl. auto.
  - destruct H as [c [n [m [Ic [Le [Nm PJ]]]]]]. assert (L : c < List.length (blocks w)) by (apply in_app_or in Ic; destruct Ic; auto).
    destruct (secondary_branch_ok w WF default lock_flag LS set_order SO o OUT c L) as [br [ps [Eb [_ [_ Cp]]]]].
    exists c, ps. split; auto. rewrite Eb. split; auto. apply Cp. eauto.
Qed.

Lemma construct_ok run (s r : state) flags memo : settled s -> sim (fun _ => False) s r -> memorized_pipes = Ok memo ->
  exists y, construct run r flags = Ok y /\ is_run y = run /\ pflag y = flags /\ sim (given_pipe s) s (core y)
    /\ (forall p, real_pipe w p -> ~ given_pipe s p ->
          s_pipe (core y) p = if run then (if memb Nat.eqb p memo then s_pipe r p else None) else s_pipe r p).
Proof.
  intros S H E. unfold StateModel.construct. destruct run.
  - unfold BranchModel.workflow_run. rewrite E. cbn [bind].
    destruct (refill s (mkState (s_iv r) (s_var r) (s_blk r) (fun p => if memb Nat.eqb p memo then s_pipe r p else None) (s_out r) (evaluated r)) S)
      as [y [Ey [Sy Py]]]; [destruct H; constructor; simpl; auto; contradiction|].
    rewrite Ey. cbn [bind]. eexists. split; [reflexivity|]. simpl. auto.
  - destruct (refill s r S H) as [y [Ey [Sy Py]]]. rewrite Ey. cbn [bind]. eexists. split; [reflexivity|]. simpl. auto.
Qed.

(** ** Copies *)
Lemma copied_values_ok (s : state) : exists m, copied_values w s = Ok m /\ (forall p, real_pipe w p -> m p = s_pipe s p)
  /\ (forall p, ~ real_pipe w p -> m p = None).
Proof.
  unfold copied_values.
  match goal with |- exists m, foldM ?f ?l _ = _ /\ _ =>
    destruct (fold_upd_some f fst (fun ip => s_pipe s (fst ip)) l) with (m0 := fun _ : nat => @None V) as [m [E [K W]]] end.
  - intros [p [q t]] m I. cbn [fst snd]. destruct (s_pipe s p); auto. apply enumerate_In in I.
    assert (J := nth_error_In _ _ I). destruct (pipe_end_in w WF q t J) as [Iq It].
    destruct (indices_exists w WF q Iq) as [a [Ea _]]. destruct (indices_exists w WF t It) as [b [Eb _]].
    rewrite Ea. cbn [bind]. rewrite Eb. cbn [bind]. rewrite (pipe_lookup w WF p q t a b I Ea Eb). reflexivity.
  - apply enumerate_NoDup.
  - exists m. split; auto. split.
    + intros p R. destruct (real_pipe_nth w p R) as [q [t N]]. specialize (W (p, (q, t))). cbn [fst] in W.
      rewrite W by (apply enumerate_In; auto). destruct (s_pipe s p); auto.
    + intros p NR. apply K. intros J. apply in_map_iff in J. destruct J as [[p' qt] [<- J]]. apply enumerate_In in J.
      apply NR. unfold real_pipe. apply nth_error_Some. simpl. congruence.
Qed.

Lemma copied_flags_ok (s : state) : tidy w s -> exists m, copied_flags w s = Ok m /\ forall v, m v = s_var s v.
Proof.
  intros T. unfold copied_flags.
  match goal with |- exists m, foldM ?f ?l _ = _ /\ _ =>
    destruct (fold_upd f (fun v => v) (fun v => s_var s v) l) with (m0 := fun _ : nat => false) as [m [E [K W]]] end.
  - intros v m I. destruct (indices_exists w WF v I) as [a [Ea Fa]]. rewrite Ea. cbn [bind]. rewrite Fa. reflexivity.
  - rewrite map_id. apply (variables_nodup w WF).
  - exists m. split; auto. intros v. destruct (in_dec Nat.eq_dec v (variables w)) as [I|I]; [auto|].
    rewrite K by (rewrite map_id; auto). destruct (s_var s v) eqn:Sv; auto. exfalso. apply I. apply (t_var _ _ T); auto.
Qed.

Lemma blk_bound (s : state) b : tidy w s -> (b <? List.length (blocks w)) && s_blk s b = s_blk s b.
Proof.
  intros T. destruct (s_blk s b) eqn:E; [|apply andb_false_r]. rewrite andb_true_r. apply Nat.ltb_lt. apply (t_blk _ _ T); auto.
Qed.

Lemma copy_ok (x : wstate) memo : settled (core x) -> tidy w (core x) -> memorized_pipes = Ok memo ->
  exists y, copy x = Ok y /\ is_run y = is_run x /\ sim (given_pipe (core x)) (core x) (core y)
    /\ (forall p, real_pipe w p -> ~ given_pipe (core x) p ->
          s_pipe (core y) p = if is_run x then (if memb Nat.eqb p memo then s_pipe (core x) p else None) else s_pipe (core x) p)
    /\ (forall p, real_pipe w p -> pipe_flag y p = pipe_flag x p).
Proof.
  intros S T E. unfold StateModel.copy. destruct (copied_values_ok (core x)) as [m [Em [M1 M2]]]. rewrite Em. cbn [bind].
  destruct (copied_flags_ok (core x) T) as [f [Ef Ff]]. rewrite Ef. cbn [bind].
  match goal with |- exists y, construct ?run ?r ?fl = _ /\ _ => destruct (construct_ok run (core x) r fl memo S) as [y [Ey [Ry [Fy [Sy Py]]]]] end; auto.
  { constructor; simpl; auto; [intros b; symmetry; apply blk_bound; auto|contradiction]. }
  exists y. split; auto. split; auto. split; auto. split.
  - intros p R NG. rewrite (Py p R NG). simpl. rewrite M1 by auto. reflexivity.
  - intros p R. unfold pipe_flag at 1. rewrite Fy. rewrite (proj2 (Nat.ltb_lt _ _) R). simpl.
    destruct (pipe_flag x p) eqn:Fx; auto. simpl. unfold pipe_flag in Fx. apply orb_false_iff in Fx. destruct Fx as [_ Fx].
    destruct (s_pipe (core y) p) eqn:Yp; auto. exfalso.
    destruct (real_pipe_nth w p R) as [q [t Np]].
    assert (NG : ~ given_pipe (core x) p).
    { intros G. rewrite (m_pipe _ _ _ Sy p G), Yp in Fx. discriminate. }
    rewrite (Py p R NG) in Yp. simpl in Yp. rewrite M1 in Yp by auto. destruct (s_pipe (core x) p); [discriminate|].
    destruct (is_run x); [destruct (memb Nat.eqb p memo)|]; discriminate.
Qed.

(** ** Saved states *)
Lemma concat_keys {A} (g : A -> res (list (nat * D))) (key : A -> nat) l ll :
  (forall a r, g a = Ok r -> r = [] \/ exists d, r = [(key a, d)]) -> NoDup (map key l) -> mapM g l = Ok ll ->
  NoDup (map fst (concat ll)) /\ forall kd, In kd (concat ll) <-> exists a, In a l /\ g a = Ok [kd].
Proof.
  intros Hg. revert ll. induction l as [|a l IH]; intros ll ND E; cbn [mapM] in E.
  - inversion E; subst. simpl. split; [constructor|]. intros kd. split; [tauto|]. intros [a [[] _]].
  - destruct (g a) as [r|] eqn:Ga; cbn [bind] in E; [|discriminate].
    destruct (mapM g l) as [ll'|] eqn:El; cbn [bind] in E; [|discriminate]. inversion E; subst. simpl in ND. inversion ND as [|? ? NI ND']; subst.
    destruct (IH ll' ND' eq_refl) as [N1 C1]. cbn [concat].
    destruct (Hg a r Ga) as [->|[d ->]].
    + simpl. split; auto. intros kd. rewrite C1. split; intros [b [J Gb]].
      * exists b. auto.
      * destruct J as [<-|J]; [congruence|]. eauto.
    + simpl. split.
      * constructor; auto. intros J. apply in_map_iff in J. destruct J as [kd [Ek J]]. apply C1 in J. destruct J as [b [J Gb]].
        destruct (Hg b _ Gb) as [Q|[d' Q]]; [discriminate|]. inversion Q; subst. simpl in Ek. apply NI. rewrite <- Ek. apply in_map; auto.
      * intros kd. rewrite C1. split.
        -- intros [<-|[b [J Gb]]]; [exists a; auto|]. exists b. auto.
        -- intros [b [[<-|J] Gb]]; [left; congruence|]. right. eauto.
Qed.

Notation saved_inputs := (saved_inputs w ser file_input).
Notation saved_values := (saved_values w ser file_value).

Lemma saved_inputs_ok (s : state) l : saved_inputs s = Ok l -> NoDup (map fst l) /\
  (forall i d, In (i, d) l <-> exists v x, nth_error (inputs w) i = Some v /\ s_iv s i = Some x /\ file_input v = false /\ ser x = Ok d)
  /\ (forall i v x, nth_error (inputs w) i = Some v -> s_iv s i = Some x -> file_input v = false -> exists d, ser x = Ok d).
Proof.
  unfold StateModel.saved_inputs. destruct (mapM _ _) as [ll|] eqn:E; cbn [bind]; [|discriminate]. intros Q. inversion Q; subst. clear Q.
  assert (E0 := E).
  apply (concat_keys _ fst) in E; [|intros [i v] r; cbn [fst snd]|apply enumerate_NoDup].
  - destruct E as [ND C]. split; auto. split.
    + intros i d. rewrite C. split.
      * intros [[j v] [J G]]. cbn [fst snd] in G. apply enumerate_In in J. destruct (s_iv s j) as [x|] eqn:Sj; [|inversion G].
        destruct (file_input v) eqn:Fv; [inversion G|]. destruct (ser x) as [d'|] eqn:Sx; cbn [bind] in G; [|discriminate].
        inversion G; subst. exists v, x. auto.
      * intros [v [x [N [Sx [Fv Dx]]]]]. exists (i, v). split; [apply enumerate_In; auto|]. cbn [fst snd]. rewrite Sx, Fv, Dx. reflexivity.
    + intros i v x N Sx Fv. apply mapM_ok_inv in E0.
      assert (J : In (i, v) (enumerate (inputs w))) by (apply enumerate_In; auto).
      assert (exists r, (match s_iv s i with Some x => if file_input v then Ok [] else let* d := ser x in Ok [(i, d)] | None => Ok [] end) = Ok r) as [r Er].
      { clear - E0 J. induction E0 as [|a b l1 l2 H F IH]; [contradiction|]. destruct J as [->|J]; auto. eauto. }
      rewrite Sx, Fv in Er. destruct (ser x); [eauto|discriminate].
  - destruct (s_iv s i) as [x|]; [|intros G; inversion G; auto]. destruct (file_input v); [intros G; inversion G; auto|].
    destruct (ser x) as [d|]; cbn [bind]; [|discriminate]. intros G. inversion G. eauto.
Qed.

(** The value [x] of pipe [p] is saved. *)
Definition savable (memo : list nat) (p : nat) (x : V) : Prop := file_value x = false /\ In p memo /\ exists d, ser x = Ok d.

Lemma saved_values_ok up memo (s : state) l : saved_values up memo s = Ok l -> NoDup (map fst l) /\
  (forall p d, In (p, d) l <-> exists x, real_pipe w p /\ s_pipe s p = Some x /\ file_value x = false /\ In p memo /\ ser x = Ok d).
Proof.
  unfold StateModel.saved_values. destruct (mapM _ _) as [ll|] eqn:E; cbn [bind]; [|discriminate]. intros Q. inversion Q; subst. clear Q.
  apply (concat_keys _ (fun p => p)) in E; [|intros p r|rewrite map_id; apply seq_NoDup].
  - destruct E as [ND C]. split; auto. intros p d. rewrite C. split.
    + intros [q [J G]]. apply in_seq in J. destruct (s_pipe s q) as [x|] eqn:Sq; [|inversion G].
      destruct (negb (file_value x) && memb Nat.eqb q memo) eqn:B; [|inversion G]. apply andb_true_iff in B. destruct B as [B1 B2].
      apply negb_true_iff in B1. apply (memb_In _ nat_eqb_iff) in B2.
      destruct (ser x) as [d'|e] eqn:Sx; [|destruct e; try discriminate; destruct up; discriminate]. inversion G; subst.
      exists x. split; [unfold real_pipe; lia|]. auto.
    + intros [x [R [Sx [Fx [M Dx]]]]]. exists p. split; [apply in_seq; unfold real_pipe in R; lia|]. rewrite Sx, Fx.
      apply (memb_In _ nat_eqb_iff) in M. rewrite M, Dx. reflexivity.
  - destruct (s_pipe s p) as [x|]; [|intros G; inversion G; auto].
    destruct (negb (file_value x) && memb Nat.eqb p memo); [|intros G; inversion G; auto].
    destruct (ser x) as [d|e]; [intros G; inversion G; eauto|]. destruct e; try discriminate. destruct up; [|discriminate]. intros G; inversion G; auto.
Qed.

Lemma address_eqb_iff a b : address_eqb a b = true <-> a = b.
Proof.
  destruct a as [n|n x k], b as [m|m y j]; simpl; try (split; [discriminate|congruence]).
  - rewrite Nat.eqb_eq. split; congruence.
  - rewrite !andb_true_iff, !Nat.eqb_eq, eqb_true_iff. split; [intros [[-> ->] ->]; auto|intros Q; inversion Q; auto].
Qed.

Lemma construct_fed run (r : state) flags memo : (forall i v, nth_error (inputs w) i = Some v -> typed r i v) -> memorized_pipes = Ok memo ->
  exists y, construct run r flags = Ok y /\ is_run y = run /\ pflag y = flags /\
    fed_all (mkState (s_iv r) (s_var r) (s_blk r) (fun p => if run then (if memb Nat.eqb p memo then s_pipe r p else None) else s_pipe r p)
               (s_out r) (evaluated r)) (core y).
Proof.
  intros T E. unfold StateModel.construct. destruct run.
  - unfold BranchModel.workflow_run. rewrite E. cbn [bind].
    pose proof (inputs_fed (mkState (s_iv r) (s_var r) (s_blk r) (fun p => if memb Nat.eqb p memo then s_pipe r p else None) (s_out r) (evaluated r))) as F.
    destruct (activate_inputs false _) as [y|e]; cbn [bind].
    + eexists. split; [reflexivity|]. simpl. tauto.
    + exfalso. apply F. exact T.
  - pose proof (inputs_fed r) as F. destruct (activate_inputs false r) as [y|e]; cbn [bind].
    + eexists. split; [reflexivity|]. simpl. split; auto. split; auto. destruct F as [[] _]. constructor; auto.
    + exfalso. apply F. exact T.
Qed.

Hypothesis RT : forall x d, ser x = Ok d -> deser d = Ok x.
Hypothesis FT : forall v z, In v (inputs w) -> file_input v = true -> default v = Some z -> type_ok v z = true.

Lemma log_again l l' : mapM (fun b => if b <? List.length (blocks w) then Ok b else Err KeyError) l = Ok l' ->
  l' = l /\ mapM (fun b => if b <? List.length (blocks w) then Ok b else Err KeyError) l' = Ok l'.
Proof.
  intros E. assert (l' = l). { apply mapM_ok_inv in E. induction E as [|a b l1 l2 H F IH]; auto. destruct (a <? _); [|discriminate]. congruence. }
  subst. auto.
Qed.

(** What [y], read back from the dictionary of [x], is. *)
Record restored (memo : list nat) (x y : wstate) : Prop := {
  r_run : is_run y = is_run x;
  r_iv : forall i v, nth_error (inputs w) i = Some v -> s_iv (core y) i = if file_input v then default v else s_iv (core x) i;
  r_iv' : forall i, nth_error (inputs w) i = None -> s_iv (core y) i = None;
  r_out : s_out (core y) = match s_out (core x) with Some z => if is_none z then None else Some z | None => None end;
  r_var : forall v, s_var (core y) v = s_var (core x) v;
  r_blk : forall b, s_blk (core y) b = s_blk (core x) b;
  r_log : evaluated (core y) = evaluated (core x);
  r_flag : forall p, real_pipe w p -> pipe_flag y p = pipe_flag x p;
  r_in : forall p v t i z, nth_error (pipes w) p = Some (v, t) -> nth_error (inputs w) i = Some v -> s_iv (core y) i = Some z ->
           s_pipe (core y) p = Some z;
  r_kept : forall p z, real_pipe w p -> ~ given_pipe (core y) p -> s_pipe (core x) p = Some z -> savable memo p z -> s_pipe (core y) p = Some z;
  r_lost : forall p, real_pipe w p -> ~ given_pipe (core y) p ->
           (forall z, s_pipe (core x) p = Some z -> ~ savable memo p z) -> s_pipe (core y) p = None }.

Lemma read_back up (x : wstate) d memo : settled (core x) -> tidy w (core x) -> memorized_pipes = Ok memo -> to_dict up x = Ok d ->
  exists y, dict_to_object d = Ok y /\ restored memo x y.
Proof.
  intros S T EM. unfold StateModel.to_dict. destruct (mapM _ (evaluated (core x))) as [lg|] eqn:EL; cbn [bind]; [|discriminate].
  destruct (log_again _ _ EL) as [-> EL']. clear EL.
  destruct (saved_inputs (core x)) as [iv|] eqn:EI; cbn [bind]; [|discriminate].
  destruct (saved_inputs_ok _ _ EI) as [NI [CI SI]].
  destruct (match s_out (core x) with Some y => if is_none y then Ok None else let* d := ser y in Ok (Some d) | None => Ok None end) as [out|] eqn:EO;
    cbn [bind]; [|discriminate].
  rewrite EM. cbn [bind]. destruct (saved_values up memo (core x)) as [vals|] eqn:EV; cbn [bind]; [|discriminate].
  destruct (saved_values_ok _ _ _ _ EV) as [NV CV].
  destruct (mapM (variable_indices w) (filter (s_var (core x)) (variables w))) as [vars|] eqn:EA; cbn [bind]; [|discriminate].
  intros Q. inversion Q; subst d. clear Q. unfold StateModel.dict_to_object. cbn [d_iv d_out d_values d_blocks d_pipes d_vars d_log d_run].
  assert (EO' : (match out with Some y => let* v := deser y in Ok (Some v) | None => Ok None end)
     = Ok (match s_out (core x) with Some z => if is_none z then None else Some z | None => None end)).
  { destruct (s_out (core x)) as [z|]; [|inversion EO; auto]. destruct (is_none z); [inversion EO; auto|].
    destruct (ser z) as [d|] eqn:Dz; cbn [bind] in EO; [|discriminate]. inversion EO; subst. rewrite (RT _ _ Dz). reflexivity. }
  rewrite EO'. cbn [bind].
  match goal with |- exists y, bind (foldM ?f ?l ?m) _ = _ /\ _ =>
    destruct (fold_upd f fst (fun pd => match deser (snd pd) with Ok v => Some v | Err _ => None end) l) with (m0 := m) as [vm [Evm [Kvm Wvm]]] end.
  { intros [p d] m J. cbn [fst snd]. apply CV in J. destruct J as [z [R [Sz [Fz [M Dz]]]]]. rewrite (proj2 (Nat.ltb_lt _ _) R), (RT _ _ Dz). reflexivity. }
  { exact NV. }
  rewrite Evm. cbn [bind].
  match goal with |- exists y, bind (foldM ?f ?l ?m) _ = _ /\ _ =>
    destruct (fold_upd f fst (fun pd => match deser (snd pd) with Ok v => Some v | Err _ => None end) l) with (m0 := m) as [im [Eim [Kim Wim]]] end.
  { intros [p d] m J. cbn [fst snd]. apply CI in J. destruct J as [v [z [N [Sz [Fz Dz]]]]]. rewrite (RT _ _ Dz). reflexivity. }
  { exact NI. }
  rewrite Eim. cbn [bind].
  match goal with |- exists y, bind (foldM ?f ?l ?m) _ = _ /\ _ =>
    destruct (fold_upd f (fun v => v) (fun v => s_var (core x) v) l) with (m0 := m) as [fm [Efm [Kfm Wfm]]] end.
  { intros v m J. destruct (indices_exists w WF v J) as [a [Ea Fa]]. rewrite Ea. cbn [bind]. f_equal. f_equal.
    apply bool_iff. rewrite (memb_In _ address_eqb_iff). apply mapM_ok_inv in EA. split.
    - intros K. assert (exists u, In u (filter (s_var (core x)) (variables w)) /\ variable_indices w u = Ok a) as [u [U1 U2]].
      { clear - EA K. induction EA as [|c e l1 l2 H F IH]; [contradiction|]. destruct K as [->|K]; [exists c; simpl; auto|].
        destruct (IH K) as [u [? ?]]. exists u. simpl; auto. }
      apply filter_In in U1. destruct U1 as [U1 U3]. destruct (indices_exists w WF u U1) as [a' [Ea' Fa']].
      assert (a' = a) by congruence. subst a'. assert (u = v) by congruence. subst. exact U3.
    - intros K. assert (J2 : In v (filter (s_var (core x)) (variables w))) by (apply filter_In; auto).
      clear - EA J2 Ea. induction EA as [|c e l1 l2 H F IH]; [contradiction|]. destruct J2 as [->|J2]; [left; congruence|]. right. auto. }
  { rewrite map_id. apply (variables_nodup w WF). }
  rewrite Efm. cbn [bind]. rewrite EL'. cbn [bind].
  assert (IM : forall i v, nth_error (inputs w) i = Some v -> im i = if file_input v then None else s_iv (core x) i).
  { intros i v N. destruct (in_dec Nat.eq_dec i (map fst iv)) as [J|J].
    - apply in_map_iff in J. destruct J as [[j d] [E J]]. simpl in E. subst. specialize (Wim _ J). cbn [fst snd] in Wim. rewrite Wim.
      apply CI in J. destruct J as [v' [z [N' [Sz [Fz Dz]]]]]. rewrite (RT _ _ Dz). assert (v' = v) by congruence. subst. rewrite Fz. auto.
    - rewrite (Kim _ J). destruct (file_input v) eqn:Fv; auto. destruct (s_iv (core x) i) as [z|] eqn:Sz; auto.
      exfalso. destruct (SI i v z N Sz Fv) as [d Dz]. apply J. apply in_map_iff. exists (i, d). split; auto. apply CI. exists v, z. auto. }
  assert (IM' : forall i, nth_error (inputs w) i = None -> im i = None).
  { intros i N. apply Kim. intros J. apply in_map_iff in J. destruct J as [[j d] [E J]]. simpl in E. subst. apply CI in J.
    destruct J as [v [z [N' _]]]. congruence. }
  assert (VM : forall p z, s_pipe (core x) p = Some z -> real_pipe w p -> savable memo p z -> vm p = Some z).
  { intros p z Sz R [Fz [M [d Dz]]]. assert (J : In (p, d) vals) by (apply CV; exists z; auto).
    specialize (Wvm _ J). cbn [fst snd] in Wvm. rewrite Wvm, (RT _ _ Dz). reflexivity. }
  assert (VM' : forall p, (forall z, s_pipe (core x) p = Some z -> ~ savable memo p z) -> vm p = None).
  { intros p H. apply Kvm. intros J. apply in_map_iff in J. destruct J as [[q d] [E J]]. simpl in E. subst. apply CV in J.
    destruct J as [z [R [Sz [Fz [M Dz]]]]]. apply (H z Sz). split; auto. split; eauto. }
  assert (VM2 : forall p, vm p <> None -> In p memo).
  { intros p H. destruct (in_dec Nat.eq_dec p (map fst vals)) as [J|J]; [|rewrite (Kvm _ J) in H; congruence].
    apply in_map_iff in J. destruct J as [[q d] [E J]]. simpl in E. subst. apply CV in J. destruct J as [z [_ [_ [_ [M _]]]]]. exact M. }
  match goal with |- exists y, construct ?run ?r ?fl = _ /\ _ => destruct (construct_fed run r fl memo) as [y [Ey [Ry [Fy F]]]] end; auto.
  { intros i v N. unfold typed. simpl. rewrite (IM i v N). specialize (S i v N). unfold settled_at in S.
    destruct (file_input v) eqn:Fv.
    - intros z Dz. apply FT; auto. eapply nth_error_In; eauto.
    - destruct (s_iv (core x) i); [tauto|]. congruence. }
  exists y. split; auto.
  assert (IV : forall i v, nth_error (inputs w) i = Some v -> s_iv (core y) i = if file_input v then default v else s_iv (core x) i).
  { intros i v N. rewrite (f_iv _ _ _ F i v) by (apply enumerate_In; auto). cbn [s_iv]. rewrite (IM i v N).
    destruct (file_input v); auto. specialize (S i v N). unfold settled_at in S. destruct (s_iv (core x) i); auto. }
  assert (GX : forall i v, nth_error (inputs w) i = Some v -> s_iv (core y) i <> None -> s_iv (core x) i <> None).
  { intros i v N. rewrite (IV i v N). destruct (file_input v); auto. intros H. specialize (S i v N). unfold settled_at in S.
    destruct (s_iv (core x) i); congruence. }
  assert (OTH : forall p, real_pipe w p -> ~ given_pipe (core y) p -> s_pipe (core y) p = vm p).
  { intros p R NG. destruct (real_pipe_nth w p R) as [q [t Np]].
    assert (FL : (if is_run x then (if memb Nat.eqb p memo then vm p else None) else vm p) = vm p).
    { destruct (is_run x); auto. destruct (memb Nat.eqb p memo) eqn:MB; auto. destruct (vm p) eqn:Vp; auto.
      apply (memb_In_false _ nat_eqb_iff) in MB. exfalso. apply MB, VM2. congruence. }
    destruct (in_dec Nat.eq_dec q (inputs w)) as [J|J].
    - apply In_nth_error in J. destruct J as [i Ni]. rewrite (f_in _ _ _ F p q t i Np) by (apply enumerate_In; auto).
      destruct (s_iv (core y) i) eqn:Yi; [exfalso; apply NG; exists i, q, t; rewrite Yi; repeat split; auto; discriminate|]. exact FL.
    - rewrite (f_other _ _ _ F p q t Np); [exact FL|]. intros i K. apply J. apply enumerate_In in K. eapply nth_error_In; eauto. }
  constructor; auto.
  - intros i N. rewrite (f_iv' _ _ _ F); [simpl; auto|]. intros J. apply in_map_iff in J. destruct J as [[j v] [E J]]. simpl in E. subst.
    apply enumerate_In in J. congruence.
  - rewrite (f_out _ _ _ F). reflexivity.
  - intros u. apply bool_iff. rewrite (f_var _ _ _ F). cbn [s_var].
    assert (FU : fm u = s_var (core x) u).
    { destruct (in_dec Nat.eq_dec u (variables w)) as [J|J]; [auto|]. rewrite Kfm by (rewrite map_id; auto).
      destruct (s_var (core x) u) eqn:Su; auto. exfalso. apply J, (t_var _ _ T); auto. }
    rewrite FU. split; auto. intros [U|[i [v [J [G U]]]]]; auto. apply enumerate_In in J.
    specialize (S i v J). unfold settled_at in S. apply (GX i v J) in G. destruct (s_iv (core x) i) as [z|]; [|congruence].
    destruct S as [_ [Sv Sp]]. destruct U as [->|U]; auto. apply In_nth_error in U. destruct U as [p Np]. apply (Sp p u Np).
  - intros b. rewrite (f_blk _ _ _ F). cbn [s_blk]. apply bool_iff. rewrite andb_true_iff, (memb_In _ nat_eqb_iff), filter_In, Nat.ltb_lt, in_seq.
    split; [tauto|]. intros H. assert (L := t_blk _ _ T b H). split; auto. split; auto. lia.
  - rewrite (f_log _ _ _ F). reflexivity.
  - intros p R. unfold pipe_flag at 1. rewrite Fy. rewrite (proj2 (Nat.ltb_lt _ _) R). cbn [andb].
    assert (PM : memb Nat.eqb p (filter (pipe_flag x) (seq 0 (List.length (pipes w)))) = pipe_flag x p).
    { apply bool_iff. rewrite (memb_In _ nat_eqb_iff), filter_In, in_seq. unfold real_pipe in R. intuition lia. }
    rewrite PM. destruct (pipe_flag x p) eqn:Fx; auto. simpl. unfold pipe_flag in Fx. apply orb_false_iff in Fx. destruct Fx as [_ Fx].
    destruct (s_pipe (core y) p) as [y0|] eqn:Yp; auto. exfalso. destruct (s_pipe (core x) p) as [z|] eqn:Xp; [discriminate|].
    assert (NG : ~ given_pipe (core y) p).
    { intros [i [v [t [Ni [Np G]]]]]. apply (GX i v Ni) in G. specialize (S i v Ni). unfold settled_at in S.
      destruct (s_iv (core x) i) as [z|]; [|congruence]. destruct S as [_ [_ Sp]]. destruct (Sp p t Np). congruence. }
    rewrite (OTH p R NG), VM' in Yp; [discriminate|]. intros z. rewrite Xp. discriminate.
  - intros p v t i z Np Ni Yi. rewrite (f_in _ _ _ F p v t i Np) by (apply enumerate_In; auto). rewrite Yi. reflexivity.
  - intros p z R NG Xp Sv. rewrite (OTH p R NG). auto.
  - intros p R NG H. rewrite (OTH p R NG). auto.
Qed.
End B.

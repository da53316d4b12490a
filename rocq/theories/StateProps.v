(** Property C48: copies, saved states and equality of workflow states. *)
From Coq Require Import String Bool ZArith Arith Lia Permutation List.
From Verif Require Import Base BaseProofs ExecModel ExecSpec ExecStruct ExecRuntime ExecProofs ExecRun ExecSim ExecProps
  BranchModel BranchSpec BranchProofs BranchEval BranchShow BranchRun BranchProps StateModel StateSpec StateProofs StateLife StateEq.
Import ListNotations.

Section Statements.
Context {V D : Type}.
Variable w : workflow.
Variable default : nat -> option V.
Variable lock_flag : nat -> bool.
Variable type_ok : nat -> V -> bool.
Variable evaluate : nat -> list V -> res (list V).
Variable set_order : nat -> list nat -> list nat.
Variable displays exports : list nat.
Variable selector : nat -> string.
Variable ser : V -> res D.
Variable deser : D -> res V.
Variable file_input : nat -> bool.
Variable file_value : V -> bool.
Variable is_none : V -> bool.
Variable veq : V -> V -> bool.
Variable vhash : V -> Z.
Variable none_hash wf_hash : Z.

Notation wstate := (@wstate V).
Notation copy := (copy w default lock_flag type_ok set_order displays exports).
Notation to_dict := (to_dict w default lock_flag set_order displays exports ser file_input file_value is_none).
Notation dict_to_object := (dict_to_object w default lock_flag type_ok set_order displays exports deser).
Notation life := (life w default lock_flag type_ok evaluate set_order displays exports selector ser deser file_input file_value is_none).
Notation step := (step w default lock_flag type_ok evaluate set_order displays exports selector ser deser file_input file_value is_none).
Notation serve := (serve w default lock_flag type_ok evaluate set_order displays exports selector).
Notation state_eq := (state_eq w default lock_flag set_order file_input is_none veq vhash none_hash wf_hash).
Notation memorised := (memorised w displays exports).
Notation saved := (saved w displays exports ser file_value).
Notation given_pipe := (given_pipe w).

(** The assumptions of all the theorems: the workflow is well formed, has an output,
    its displays and exports are blocks; what was serialised reads back the same; the
    default values of file inputs have their types. *)
Definition setting : Prop :=
  well_formed w /\ locks_sound default lock_flag /\ (forall b l, Permutation (set_order b l) l)
  /\ (exists o, output w = Some o)
  /\ (forall c, In c (displays ++ exports) -> c < List.length (blocks w))
  /\ (forall x d, ser x = Ok d -> deser d = Ok x)
  /\ (forall v z, In v (inputs w) -> file_input v = true -> default v = Some z -> type_ok v z = true).

(** [x] was started with some inputs, then run, displayed, copied, saved and read back
    or turned into a WorkflowRun, in any order. *)
Definition reached (x : wstate) : Prop :=
  exists iv ops, (forall i, iv i <> None -> i < List.length (inputs w)) /\ life iv ops = Ok x.

Lemma reached_ok x : setting -> reached x -> settled w default type_ok (core x) /\ tidy w (core x).
Proof.
  intros [WF [LS [SO [[o OUT] [VB [RT FT]]]]]] [iv [ops [H E]]].
  eapply (life_ok w WF default lock_flag LS type_ok evaluate set_order SO o OUT displays exports
    (fun c J => VB c (in_or_app _ _ _ (or_introl J))) (fun c J => VB c (in_or_app _ _ _ (or_intror J)))
    selector ser deser file_input file_value is_none RT FT); eauto.
Qed.

Lemma setting_memo : setting -> exists memo, memorized_pipes w default lock_flag set_order displays exports = Ok memo
  /\ forall p, In p memo <-> memorised p.
Proof.
  intros [WF [LS [SO [[o OUT] [VB _]]]]].
  exact (memorized w WF default lock_flag LS type_ok evaluate set_order SO o OUT displays exports
    (fun c J => VB c (in_or_app _ _ _ (or_introl J))) (fun c J => VB c (in_or_app _ _ _ (or_intror J))) selector file_input).
Qed.

(** ** Copies *)

(** A copy succeeds and is the same, values of pipes included; but the copy of a
    WorkflowRun loses the values of the pipes that are neither memorised nor fed by an
    input. *)
Theorem C48_copy : setting -> forall x, reached x -> exists y, copy x = Ok y
  /\ is_run y = is_run x
  /\ (forall i, s_iv (core y) i = s_iv (core x) i) /\ (forall v, s_var (core y) v = s_var (core x) v)
  /\ (forall n, s_blk (core y) n = s_blk (core x) n) /\ s_out (core y) = s_out (core x)
  /\ evaluated (core y) = evaluated (core x)
  /\ (forall p, p < List.length (pipes w) -> pipe_flag y p = pipe_flag x p)
  /\ (forall p, p < List.length (pipes w) -> is_run x = false \/ memorised p \/ given_pipe (core x) p ->
        s_pipe (core y) p = s_pipe (core x) p)
  /\ (forall p, p < List.length (pipes w) -> is_run x = true -> ~ memorised p -> ~ given_pipe (core x) p ->
        s_pipe (core y) p = None).
Proof.
  intros ST x R. destruct (reached_ok x ST R) as [S T]. destruct (setting_memo ST) as [memo [EM CM]].
  destruct ST as [WF [LS [SO [[o OUT] _]]]].
  destruct (copy_ok w WF default lock_flag LS type_ok evaluate set_order o displays exports selector ser file_input file_value is_none x memo S T EM)
    as [y [Ey [Ry [Sy [Py Fy]]]]].
  exists y. split; auto. split; auto. split; [intros i; symmetry; apply (m_iv _ _ _ Sy)|].
  split; [intros v; symmetry; apply (m_var _ _ _ Sy)|]. split; [intros n; symmetry; apply (m_blk _ _ _ Sy)|].
  split; [symmetry; apply (m_out _ _ _ Sy)|]. split; [symmetry; apply (m_log _ _ _ Sy)|]. split; [exact Fy|]. split.
  - intros p L H. destruct (given_dec w WF (core x) p) as [G|G]; [symmetry; apply (m_pipe _ _ _ Sy); auto|].
    rewrite (Py p L G). destruct H as [->|[H|H]]; auto; [|contradiction]. destruct (is_run x); auto.
    apply CM, (memb_In _ nat_eqb_iff) in H. rewrite H. reflexivity.
  - intros p L Rn NM NG. rewrite (Py p L NG), Rn. destruct (memb Nat.eqb p memo) eqn:M; auto. apply (memb_In _ nat_eqb_iff), CM in M. contradiction.
Qed.

(** A copy answers every further request as the original.  For a WorkflowRun, provided
    the values it may still read are memorised or come from an input. *)
Theorem C48_copy_behaves : setting -> forall x, reached x -> forall y, copy x = Ok y ->
  (is_run x = true -> forall p q t n b, nth_error (pipes w) p = Some (q, t) -> nth_error (blocks w) n = Some b -> In t (b_in b) ->
     s_pipe (core x) p <> None -> (s_blk (core x) n = true /\ needed w n) \/ memorised p \/ given_pipe (core x) p) ->
  forall qs, same_answers (foldM serve qs (core x, [])) (foldM serve qs (core y, [])).
Proof.
  intros ST x R y E H qs. destruct (reached_ok x ST R) as [S T]. destruct (setting_memo ST) as [memo [EM CM]].
  destruct ST as [WF [LS [SO [[o OUT] _]]]].
  pose proof (copy_sim w WF default lock_flag LS type_ok evaluate set_order o displays exports selector ser file_input file_value is_none x y memo S T EM E) as SIM.
  match type of SIM with sim ?K _ _ => assert (RL : read_later w K (core x)) end.
  { intros n p [b [q [t [Nb [It Np]]]]]. assert (L : real_pipe w p) by (unfold real_pipe; apply nth_error_Some; congruence).
    destruct (is_run x); [|left; split; auto; discriminate]. destruct (s_pipe (core x) p) eqn:Sp.
    - destruct (H eq_refl p q t n b Np Nb It) as [?|[?|?]]; auto; [congruence|left..]; split; auto; intros _ _; auto. left. apply CM. auto.
    - left. split; auto. congruence. }
  pose proof (step_serves w WF default lock_flag LS type_ok evaluate set_order SO o OUT displays exports selector _ qs _ _ [] SIM RL) as Q.
  unfold same_out, same_answers in *. destruct (foldM serve qs (core x, [])) as [[s sh]|], (foldM serve qs (core y, [])) as [[r sh']|]; auto.
  destruct Q as [[] [_ ->]]. auto 10.
Qed.

(** ** Runs *)

(** A state becomes a WorkflowRun exactly when every block the output needs was
    evaluated, otherwise ValueError is raised.  The run keeps the inputs, the flags, the
    output and the log, and of the values of pipes those that are memorised or fed by an
    input. *)
Theorem C48_to_run : setting -> forall x, reached x ->
  ((exists n, needed w n /\ s_blk (core x) n = false) -> step x ToRun = Err ValueError)
  /\ ((forall n, needed w n -> s_blk (core x) n = true) -> exists y, step x ToRun = Ok y
    /\ is_run y = true
    /\ (forall i, s_iv (core y) i = s_iv (core x) i) /\ (forall v, s_var (core y) v = s_var (core x) v)
    /\ (forall n, s_blk (core y) n = s_blk (core x) n) /\ s_out (core y) = s_out (core x)
    /\ evaluated (core y) = evaluated (core x)
    /\ (forall p, p < List.length (pipes w) -> pipe_flag y p = pipe_flag x p)
    /\ (forall p, p < List.length (pipes w) -> memorised p \/ given_pipe (core x) p -> s_pipe (core y) p = s_pipe (core x) p)
    /\ (forall p, p < List.length (pipes w) -> ~ memorised p -> ~ given_pipe (core x) p -> s_pipe (core y) p = None)).
Proof.
  intros ST x R. destruct (reached_ok x ST R) as [S T]. destruct (setting_memo ST) as [memo [EM CM]].
  destruct ST as [WF [LS [SO [[o OUT] _]]]].
  destruct (completed_ok w WF default lock_flag LS type_ok evaluate set_order SO (fun _ => None) o OUT (core x)) as [c [Ec Cc]].
  unfold StateModel.step. rewrite Ec. cbn [bind]. split.
  - intros [n [N F]]. destruct c; auto. rewrite (proj1 Cc eq_refl n N) in F. discriminate.
  - intros H. apply Cc in H. subst c.
    destruct (construct_ok w WF default lock_flag LS type_ok evaluate set_order o displays exports selector ser file_input file_value is_none true (core x) (core x) (pipe_flag x) memo S (sim_refl _ _) EM)
      as [y [Ey [Ry [Fy [Sy Py]]]]].
    exists y. split; auto. split; auto. split; [intros i; symmetry; apply (m_iv _ _ _ Sy)|].
    split; [intros v; symmetry; apply (m_var _ _ _ Sy)|]. split; [intros n; symmetry; apply (m_blk _ _ _ Sy)|].
    split; [symmetry; apply (m_out _ _ _ Sy)|]. split; [symmetry; apply (m_log _ _ _ Sy)|].
    split.
    { intros p L. unfold pipe_flag at 1. rewrite Fy. destruct (pipe_flag x p) eqn:F; auto. simpl.
      unfold pipe_flag in F. apply orb_false_iff in F. destruct F as [_ F].
      destruct (given_dec w WF (core x) p) as [G|G].
      - rewrite <- (m_pipe _ _ _ Sy p G). exact F.
      - rewrite (Py p L G). destruct (memb Nat.eqb p memo); auto. }
    split.
    + intros p L K. destruct (given_dec w WF (core x) p) as [G|G]; [symmetry; apply (m_pipe _ _ _ Sy); auto|].
      rewrite (Py p L G). destruct K as [K|K]; [|contradiction]. apply CM, (memb_In _ nat_eqb_iff) in K. rewrite K. reflexivity.
    + intros p L NM NG. rewrite (Py p L NG). destruct (memb Nat.eqb p memo) eqn:M; auto. apply (memb_In _ nat_eqb_iff), CM in M. contradiction.
Qed.

(** ** Saved states *)

(** Exactly when a state can be saved: the inputs, but for file inputs, the output and
    the values of memorised pipes, but for files, can be serialised; with pointers, a
    value of a pipe may raise SerializationError. *)
Theorem C48_saving : setting -> forall x, reached x -> forall use_pointers,
  (exists d, to_dict use_pointers x = Ok d) <->
  (forall i v z, nth_error (inputs w) i = Some v -> s_iv (core x) i = Some z -> file_input v = false -> exists d, ser z = Ok d)
  /\ (forall z, s_out (core x) = Some z -> is_none z = false -> exists d, ser z = Ok d)
  /\ (forall p z, p < List.length (pipes w) -> memorised p -> s_pipe (core x) p = Some z -> file_value z = false ->
        (exists d, ser z = Ok d) \/ use_pointers = true /\ ser z = Err SerializationError).
Proof.
  intros ST x R up. destruct (reached_ok x ST R) as [S T]. destruct (setting_memo ST) as [memo [EM CM]].
  destruct ST as [WF [LS [SO [[o OUT] _]]]].
  rewrite (saving w WF default lock_flag set_order displays exports ser file_input file_value is_none up x memo T EM).
  split; intros [H1 [H2 H3]]; (split; [|split]); auto; intros p z L M; apply H3; auto; apply CM; auto.
Qed.

(** What was saved reads back, and what is read: inputs but files, for which the
    default value is taken, flags, output, evaluated blocks, and of the values of pipes
    those fed by an input or saved; a value is saved if its pipe is memorised, it is not
    a file and it can be serialised. *)
Theorem C48_read_back : setting -> forall x, reached x -> forall use_pointers d, to_dict use_pointers x = Ok d ->
  exists y, dict_to_object d = Ok y
  /\ is_run y = is_run x
  /\ (forall i v, nth_error (inputs w) i = Some v -> s_iv (core y) i = if file_input v then default v else s_iv (core x) i)
  /\ (forall v, s_var (core y) v = s_var (core x) v) /\ (forall n, s_blk (core y) n = s_blk (core x) n)
  /\ (forall z, s_out (core x) = Some z -> is_none z = false -> s_out (core y) = Some z)
  /\ (s_out (core x) = None \/ (exists z, s_out (core x) = Some z /\ is_none z = true) -> s_out (core y) = None)
  /\ evaluated (core y) = evaluated (core x)
  /\ (forall p, p < List.length (pipes w) -> pipe_flag y p = pipe_flag x p)
  /\ (forall i v t p z, nth_error (inputs w) i = Some v -> nth_error (pipes w) p = Some (v, t) -> s_iv (core y) i = Some z ->
        s_pipe (core y) p = Some z)
  /\ (forall p, p < List.length (pipes w) -> ~ given_pipe (core y) p ->
        (forall z, s_pipe (core x) p = Some z -> saved p z -> s_pipe (core y) p = Some z)
        /\ ((forall z, s_pipe (core x) p = Some z -> ~ saved p z) -> s_pipe (core y) p = None)).
Proof.
  intros ST x R up d Ed. destruct (reached_ok x ST R) as [S T]. destruct (setting_memo ST) as [memo [EM CM]].
  destruct ST as [WF [LS [SO [[o OUT] [VB [RT FT]]]]]].
  destruct (read_back w WF default lock_flag LS type_ok evaluate set_order o displays exports selector ser deser file_input file_value is_none
    RT FT up x d memo S T EM Ed) as [y [Ey []]].
  exists y. split; auto. split; auto. split; auto. split; auto. split; auto.
  split; [intros z Sz Nz; rewrite r_out, Sz, Nz; auto|].
  split; [intros [Sz|[z [Sz Nz]]]; rewrite r_out, Sz; auto; rewrite Nz; auto|]. split; auto. split; auto.
  split; [intros i v t p z Ni Np Yi; eapply r_in; eauto|].
  intros p L NG. split.
  - intros z Sp [M [Fz Sz]]. apply r_kept; auto. split; auto. split; auto. apply CM. auto.
  - intros H. apply r_lost; auto. intros z Sp [Fz [M Sz]]. apply (H z Sp). split; [apply CM; auto|auto].
Qed.

Lemma read_back_sim x y up d : setting -> reached x -> to_dict up x = Ok d -> dict_to_object d = Ok y ->
  (forall i v, nth_error (inputs w) i = Some v -> file_input v = true -> s_iv (core x) i = None) ->
  (forall z, s_out (core x) = Some z -> is_none z = false) ->
  is_run y = is_run x /\ (forall p, real_pipe w p -> pipe_flag y p = pipe_flag x p)
  /\ (forall p, real_pipe w p -> s_pipe (core y) p <> None -> s_pipe (core x) p <> None)
  /\ (forall p, real_pipe w p -> s_pipe (core y) p <> None -> forall z, s_pipe (core x) p = Some z -> given_pipe (core x) p \/ saved p z)
  /\ sim (fun p => given_pipe (core x) p \/ real_pipe w p /\ (forall z, s_pipe (core x) p = Some z -> saved p z)) (core x) (core y).
Proof.
  intros ST R Ed Ey NF NO. destruct (reached_ok x ST R) as [S T]. destruct (setting_memo ST) as [memo [EM CM]].
  destruct ST as [WF [LS [SO [[o OUT] [VB [RT FT]]]]]].
  destruct (read_back w WF default lock_flag LS type_ok evaluate set_order o displays exports selector ser deser file_input file_value is_none
    RT FT up x d memo S T EM Ed) as [y' [Ey' RS]]. rewrite Ey in Ey'. inversion Ey'; subst y'. clear Ey'.
  pose proof (restored_sim w WF default type_ok ser file_input file_value is_none x y memo S T RS NF NO) as SIM.
  assert (GY : forall p, given_pipe (core y) p -> given_pipe (core x) p).
  { intros p [i [v [t [Ni [Np G]]]]]. exists i, v, t. rewrite (m_iv _ _ _ SIM). auto. }
  destruct RS. split; auto. split; auto. split; [|split].
  - intros p L Yp Xp. destruct (given_dec w WF (core y) p) as [G|G].
    + apply GY in G. apply Yp. rewrite <- (m_pipe _ _ _ SIM); auto.
    + apply Yp. apply r_lost; auto. intros z. congruence.
  - intros p L Yp z Xp. destruct (given_dec w WF (core y) p) as [G|G]; [left; auto|right].
    destruct (memb Nat.eqb p memo) eqn:M.
    + apply (memb_In _ nat_eqb_iff) in M. destruct (file_value z) eqn:Fz.
      { exfalso. apply Yp. apply r_lost; auto. intros z' Xp'. rewrite Xp in Xp'. inversion Xp'; subst. intros [? _]. congruence. }
      destruct (ser z) as [d0|e] eqn:Sz.
      { split; [apply CM; auto|]. eauto. }
      exfalso. apply Yp. apply r_lost; auto. intros z' Xp'. rewrite Xp in Xp'. inversion Xp'; subst. intros [_ [_ [d' ?]]]. congruence.
    + apply (memb_In_false _ nat_eqb_iff) in M. exfalso. apply Yp. apply r_lost; auto. intros z' _ [_ [? _]]. contradiction.
  - eapply sim_sub; [|exact SIM]. intros p [G|[L H]]; auto. right. split; auto. intros z Xp. destruct (H z Xp) as [M [Fz Sz]].
    split; auto. split; auto. apply CM. auto.
Qed.

(** A state read back answers every further request as the original, when it had no
    file as an input and the values it may still read were saved or come from an input. *)
Theorem C48_read_back_behaves : setting -> forall x, reached x -> forall use_pointers d y, to_dict use_pointers x = Ok d -> dict_to_object d = Ok y ->
  (forall i v, nth_error (inputs w) i = Some v -> file_input v = true -> s_iv (core x) i = None) ->
  (forall z, s_out (core x) = Some z -> is_none z = false) ->
  (forall p q t n b z, nth_error (pipes w) p = Some (q, t) -> nth_error (blocks w) n = Some b -> In t (b_in b) ->
     s_pipe (core x) p = Some z -> (s_blk (core x) n = true /\ needed w n) \/ saved p z \/ given_pipe (core x) p) ->
  forall qs, same_answers (foldM serve qs (core x, [])) (foldM serve qs (core y, [])).
Proof.
  intros ST x R up d y Ed Ey NF NO H qs. destruct (read_back_sim x y up d ST R Ed Ey NF NO) as [_ [_ [_ [_ SIM]]]].
  destruct ST as [WF [LS [SO [[o OUT] _]]]].
  match type of SIM with sim ?K _ _ => assert (RL : read_later w K (core x)) end.
  { intros n p [b [q [t [Nb [It Np]]]]]. assert (L : real_pipe w p) by (unfold real_pipe; apply nth_error_Some; congruence).
    destruct (s_pipe (core x) p) as [z|] eqn:Sp; [|left; right; split; auto; intros; discriminate].
    destruct (H p q t n b z Np Nb It Sp) as [?|[Q|?]]; auto. left. right. split; auto. intros z' E. inversion E; subst. auto. }
  pose proof (step_serves w WF default lock_flag LS type_ok evaluate set_order SO o OUT displays exports selector _ qs _ _ [] SIM RL) as Q.
  unfold same_out, same_answers in *. destruct (foldM serve qs (core x, [])) as [[s sh]|], (foldM serve qs (core y, [])) as [[r sh']|]; auto.
  destruct Q as [[] [_ ->]]. auto 10.
Qed.

(** A block, all of whose inputs are activated, that reads from another block a value
    that was not saved can no longer be evaluated: KeyError. *)
Theorem C48_unsaved_value_raises : setting -> forall x, reached x -> forall use_pointers d y, to_dict use_pointers x = Ok d -> dict_to_object d = Ok y ->
  forall p q t n b, nth_error (pipes w) p = Some (q, t) -> ~ In q (inputs w) -> nth_error (blocks w) n = Some b -> In t (b_in b) ->
  (forall z, s_pipe (core x) p = Some z -> ~ saved p z) ->
  (forall u, In u (b_in b) -> s_var (core x) u = true) -> s_blk (core x) n = false \/ ~ needed w n ->
  foldM serve [Do (EvalBlock n)] (core y, []) = Err KeyError.
Proof.
  intros ST x R up d y Ed Ey p q t n b Np NI Nb It NS Fl NB.
  destruct (C48_read_back ST x R up d Ed) as [y' [Ey' [_ [_ [FV [FB [_ [_ [_ [_ [_ P]]]]]]]]]]]. rewrite Ey in Ey'. inversion Ey'; subst y'. clear Ey'.
  assert (Ry : reached y).
  { destruct R as [iv [ops [Hiv E]]]. exists iv, (ops ++ [Reload up]). split; auto. unfold StateModel.life in *.
    destruct (start_run _ _ _ _ iv) as [s0|]; cbn [bind] in *; [|discriminate]. rewrite foldM_app, E. cbn [bind foldM StateModel.step]. rewrite Ed. cbn [bind]. rewrite Ey. reflexivity. }
  destruct (reached_ok y ST Ry) as [S T]. destruct ST as [WF [LS [SO [[o OUT] _]]]].
  cbn [foldM BranchModel.serve act fst snd].
  rewrite (missing_raises w WF default lock_flag LS type_ok evaluate set_order SO o OUT (core y) n b t); auto.
  - intros u Iu. rewrite FV. auto.
  - rewrite FB. auto.
  - unfold read_input. assert (E : variable_input_pipe w t = Some (p, (q, t))) by (apply (input_pipe_some w WF); auto). rewrite E. cbn [fst].
    destruct (P p) as [_ Q]; [apply nth_error_Some; congruence| |rewrite Q; auto].
    intros [i [v [t' [Ni [Np' _]]]]]. rewrite Np in Np'. inversion Np'; subst. apply NI. eapply nth_error_In; eauto.
Qed.

(** ** Comparison *)

(** A copy equals the original; that of a WorkflowRun, exactly when it lost no value. *)
Theorem C48_copy_equal : setting -> (forall z, veq z z = true) -> (Z.of_nat (List.length (pipes w)) * 7 < 1000000000)%Z ->
  forall x, reached x -> forall y, copy x = Ok y ->
  exists b, state_eq x y = Ok b
  /\ (b = true <-> (is_run x = true -> forall p, p < List.length (pipes w) -> s_pipe (core x) p <> None -> memorised p \/ given_pipe (core x) p)).
Proof.
  intros ST VR B x R y E. destruct (reached_ok x ST R) as [S T]. destruct (setting_memo ST) as [memo [EM CM]].
  destruct ST as [WF [LS [SO [[o OUT] _]]]].
  destruct (copy_ok w WF default lock_flag LS type_ok evaluate set_order o displays exports selector ser file_input file_value is_none x memo S T EM)
    as [y' [Ey [Ry [Sy [Py Fy]]]]]. rewrite E in Ey. inversion Ey; subst y'. clear Ey.
  destruct (eq_count w WF default lock_flag LS set_order SO o OUT file_input is_none veq vhash none_hash wf_hash x y VR B Ry) as [bb [Eb Cb]]; auto.
  { eapply sim_sub; [|exact Sy]. simpl. tauto. }
  exists bb. split; auto. rewrite Cb.
  assert (LE : forall p, real_pipe w p -> s_pipe (core y) p <> None -> s_pipe (core x) p <> None).
  { intros p L. destruct (given_dec w WF (core x) p) as [G|G]; [rewrite (m_pipe _ _ _ Sy p G); auto|].
    rewrite (Py p L G). destruct (is_run x); auto. destruct (memb _ _ _); congruence. }
  rewrite (valued_count w o file_input x y LE). split.
  - intros H Rn p L Xp. specialize (H p L Xp). destruct (given_dec w WF (core x) p) as [G|G]; auto.
    rewrite (Py p L G), Rn in H. destruct (memb Nat.eqb p memo) eqn:M; [|congruence]. left. apply CM, (memb_In _ nat_eqb_iff). auto.
  - intros H p L Xp. destruct (given_dec w WF (core x) p) as [G|G]; [rewrite <- (m_pipe _ _ _ Sy p G); auto|].
    rewrite (Py p L G). destruct (is_run x); auto. destruct (H eq_refl p L Xp) as [M|]; [|contradiction].
    apply CM, (memb_In _ nat_eqb_iff) in M. rewrite M. auto.
Qed.

(** A state read back equals the original exactly when no value was lost. *)
Theorem C48_read_back_equal : setting -> (forall z, veq z z = true) -> (Z.of_nat (List.length (pipes w)) * 7 < 1000000000)%Z ->
  forall x, reached x -> forall use_pointers d y, to_dict use_pointers x = Ok d -> dict_to_object d = Ok y ->
  (forall i v, nth_error (inputs w) i = Some v -> file_input v = true -> s_iv (core x) i = None) ->
  (forall z, s_out (core x) = Some z -> is_none z = false) ->
  exists b, state_eq x y = Ok b
  /\ (b = true <-> forall p z, p < List.length (pipes w) -> s_pipe (core x) p = Some z -> saved p z \/ given_pipe (core x) p).
Proof.
  intros ST VR B x R up d y Ed Ey NF NO. destruct (read_back_sim x y up d ST R Ed Ey NF NO) as [Ry [Fy [LE [KE SIM]]]].
  destruct ST as [WF [LS [SO [[o OUT] _]]]].
  destruct (eq_count w WF default lock_flag LS set_order SO o OUT file_input is_none veq vhash none_hash wf_hash x y VR B Ry) as [bb [Eb Cb]]; auto.
  { eapply sim_sub; [|exact SIM]. simpl. tauto. }
  exists bb. split; auto. rewrite Cb, (valued_count w o file_input x y LE). split.
  - intros H p z L Xp. destruct (KE p L) with (z := z); auto. apply H; auto. rewrite Xp. discriminate.
  - intros H p L Xp. destruct (s_pipe (core x) p) as [z|] eqn:Sp; [|congruence].
    rewrite <- (m_pipe _ _ _ SIM); [rewrite Sp; discriminate|]. destruct (H p z L Sp) as [Q|G]; auto. right. split; auto. intros z' E. rewrite Sp in E. inversion E; subst. auto.
Qed.

(** What equal states have in common: the class, the number of evaluated blocks, the
    output, the inputs but files, the flags of blocks, of their ports and of pipes. *)
Theorem C48_equal_agree : forall x y, state_eq x y = Ok true ->
  is_run x = is_run y
  /\ (exists n m t u, progress w default lock_flag set_order (core x) = Ok (n, t)
        /\ progress w default lock_flag set_order (core y) = Ok (m, u) /\ n = m)
  /\ (forall z z', s_out (core x) = Some z -> s_out (core y) = Some z' -> veq z z' = true)
  /\ (forall i v z z', nth_error (inputs w) i = Some v -> file_input v = false -> s_iv (core x) i = Some z -> s_iv (core y) i = Some z' -> veq z z' = true)
  /\ (forall i v z, nth_error (inputs w) i = Some v -> file_input v = false -> s_iv (core x) i = Some z -> s_iv (core y) i = None -> is_none z = true)
  /\ (forall n b, nth_error (blocks w) n = Some b -> s_blk (core x) n = s_blk (core y) n
        /\ forall v, In v (b_in b) \/ In v (b_out b) -> s_var (core x) v = s_var (core y) v)
  /\ (forall p, p < List.length (pipes w) -> pipe_flag x p = pipe_flag y p).
Proof.
  intros x y E. destruct (eq_agrees w default lock_flag set_order file_input is_none veq vhash none_hash wf_hash x y E) as [A1 [A2 [A3 [A4 [A5 A6]]]]].
  split; auto. split; [destruct A2 as [[n t] [E1 [[m u] [E2 E3]]]]; simpl in E3; exists n, m, t, u; auto|].
  split; [intros z z' H1 H2; rewrite H1, H2 in A3; exact A3|].
  split; [intros i v z z' Ni Fv H1 H2; specialize (A4 i v Ni Fv); rewrite H1, H2 in A4; exact A4|].
  split; [intros i v z Ni Fv H1 H2; specialize (A4 i v Ni Fv); rewrite H1, H2 in A4; exact A4|]. split; auto.
  intros n b Nb. destruct (A5 n b Nb) as [Q1 Q2]. split; auto. intros v Hv. apply Q2, in_or_app. auto.
Qed.

(** Comparing does not depend on the side. *)
Theorem C48_equal_symmetric : well_formed w -> locks_sound default lock_flag -> (forall b l, Permutation (set_order b l) l) ->
  (exists o, output w = Some o) -> (forall a b, veq a b = veq b a) -> forall x y, state_eq x y = state_eq y x.
Proof.
  intros WF LS SO [o OUT] VS x y. apply (state_eq_sym w WF default lock_flag LS set_order SO o OUT file_input is_none veq vhash none_hash wf_hash); auto.
Qed.
End Statements.

Print Assumptions C48_copy.
Print Assumptions C48_copy_behaves.
Print Assumptions C48_to_run.
Print Assumptions C48_saving.
Print Assumptions C48_read_back.
Print Assumptions C48_read_back_behaves.
Print Assumptions C48_unsaved_value_raises.
Print Assumptions C48_copy_equal.
Print Assumptions C48_read_back_equal.
Print Assumptions C48_equal_agree.
Print Assumptions C48_equal_symmetric.

(** ** Examples *)

(** The workflow of C46_example, whose block 3 is a display and block 4 an export; values
    are numbers, all serialise but 9. *)
Definition sx_ser (x : nat) : res nat := if Nat.eqb x 9 then Err SerializationError else Ok (x + 1).
Definition sx_deser (d : nat) : res nat := Ok (d - 1).
Definition no_file (v : nat) : bool := false.

Notation sx_life := (life bx_w bx_default no_lock any_type bx_eval ex_order [3] [4] bx_sel sx_ser sx_deser no_file no_file no_file).
Notation sx_copy := (copy bx_w bx_default no_lock any_type ex_order [3] [4]).
Notation sx_eq := (state_eq bx_w bx_default no_lock ex_order no_file no_file Nat.eqb Z.of_nat 0%Z 0%Z).

Example C48_setting_example : setting bx_w bx_default no_lock any_type ex_order [3] [4] sx_ser sx_deser no_file.
Proof.
  split; [apply bx_wf|]. split; [intros v; unfold no_lock; discriminate|]. split; [apply ex_orders|].
  split; [eexists; reflexivity|]. split; [intros c H; simpl in H; simpl; lia|]. split; [|intros; unfold no_file in *; discriminate].
  intros x d. unfold sx_ser, sx_deser. destruct (Nat.eqb x 9); [discriminate|]. intros E. inversion E. f_equal. lia.
Qed.

(** A completed state keeps all its values when copied.  Saved, it keeps pipe 1, from a
    needed block into the branch of the display, and pipe 3, from an input, not pipe 0:
    it is not equal to the original but shows the same.  As a WorkflowRun it loses
    nothing more. *)
Example C48_example : exists x y z r r',
  sx_life (fun _ => None) [Serve (Do (AddInput 0 1)); Serve (Do (AddInput 2 5)); Serve (Do Continue)] = Ok x
  /\ map (s_pipe (core x)) [0; 1; 2; 3] = [Some 10; Some 10; None; Some 5] /\ s_out (core x) = Some 101
  /\ sx_copy x = Ok y /\ sx_eq x y = Ok true
  /\ map (s_pipe (core y)) [0; 1; 2; 3] = [Some 10; Some 10; None; Some 5] /\ s_out (core y) = Some 101
  /\ sx_life (fun _ => None) [Serve (Do (AddInput 0 1)); Serve (Do (AddInput 2 5)); Serve (Do Continue); Reload true] = Ok z
  /\ map (s_pipe (core z)) [0; 1; 2; 3] = [None; Some 10; None; Some 5] /\ s_out (core z) = Some 101 /\ sx_eq x z = Ok false
  /\ sx_life (fun _ => None) [Serve (Do (AddInput 0 1)); Serve (Do (AddInput 2 5)); Serve (Do Continue); ToRun] = Ok r
  /\ sx_life (fun _ => None) [Serve (Do (AddInput 0 1)); Serve (Do (AddInput 2 5)); Serve (Do Continue); ToRun; Reload false; Copy] = Ok r'
  /\ map (s_pipe (core r)) [0; 1; 2; 3] = [None; Some 10; None; Some 5] /\ sx_eq r r' = Ok true
  /\ exists s, foldM (serve bx_w bx_default no_lock any_type bx_eval ex_order [3] [4] bx_sel) [Display 3; Export 4] (core r', [])
       = Ok (s, [(3, 1073); (4, 44)]).
Proof.
  do 5 eexists. repeat (split; [vm_compute; reflexivity|]). eexists. vm_compute. reflexivity.
Qed.

(** ** Violations *)

(** Block 0 (0 to 1) feeds block 1 (2 to 3), whose output is that of the workflow. *)
Definition sl_w : workflow := mkWf [mkBlock [0] [1]; mkBlock [2] [3]] [(1, 2)] (Some 3).

Notation sl_life file := (life sl_w (fun _ => None) no_lock any_type bx_eval ex_order [] [] bx_sel sx_ser sx_deser file no_file no_file (fun _ => None)).
Notation sl_eq file := (state_eq sl_w (fun _ : nat => @None nat) no_lock ex_order file no_file Nat.eqb Z.of_nat 0%Z 0%Z).

(** An execution saved between two blocks cannot be resumed: the values between the
    blocks are not saved. *)
Theorem C48_resume_refuted :
  (exists x, sl_life no_file [Serve (Do (AddInput 0 5)); Serve (Do (EvalBlock 0)); Serve (Do Continue)] = Ok x /\ s_out (core x) = Some 501)
  /\ (exists x, sl_life no_file [Serve (Do (AddInput 0 5)); Serve (Do (EvalBlock 0)); Reload true] = Ok x)
  /\ sl_life no_file [Serve (Do (AddInput 0 5)); Serve (Do (EvalBlock 0)); Reload true; Serve (Do Continue)] = Err KeyError.
Proof.
  split; [eexists; split; [vm_compute; reflexivity|reflexivity]|]. split; [eexists; vm_compute; reflexivity|vm_compute; reflexivity].
Qed.

(** Equal states do not continue to the same output: equality does not look at the
    values of pipes. *)
Theorem C48_equal_continue_refuted : exists x y,
  sl_life no_file [Serve (Do (AddInput 0 1)); Serve (Do (EvalBlock 0)); Serve (Do (AddInput 0 5))] = Ok x
  /\ sl_life no_file [Serve (Do (AddInput 0 5)); Serve (Do (EvalBlock 0))] = Ok y
  /\ sl_eq no_file x y = Ok true
  /\ (exists s, foldM (serve sl_w (fun _ => None) no_lock any_type bx_eval ex_order [] [] bx_sel) [Do Continue] (core x, []) = Ok (s, []) /\ s_out s = Some 101)
  /\ (exists s, foldM (serve sl_w (fun _ => None) no_lock any_type bx_eval ex_order [] [] bx_sel) [Do Continue] (core y, []) = Ok (s, []) /\ s_out s = Some 501).
Proof.
  do 2 eexists. repeat (split; [vm_compute; reflexivity|]). split; eexists; (split; [vm_compute; reflexivity|reflexivity]).
Qed.

(** Two inputs, the second a file: the comparison of inputs tolerates different files,
    but the hash of the file enters that of the state, so that a state read back is not
    equal to the original.  If the file is the first input, it is. *)
Definition sf_w : workflow := mkWf [mkBlock [0; 1] [2]] [] (Some 2).
Notation sf_life file := (life sf_w (fun _ => None) no_lock any_type bx_eval ex_order [] [] bx_sel sx_ser sx_deser file no_file no_file (fun _ => None)).
Notation sf_eq file := (state_eq sf_w (fun _ : nat => @None nat) no_lock ex_order file no_file Nat.eqb Z.of_nat 0%Z 0%Z).

Theorem C48_file_input_refuted :
  (exists x y, sf_life (Nat.eqb 1) [Serve (Do (AddInput 0 5)); Serve (Do (AddInput 1 7))] = Ok x
     /\ sf_life (Nat.eqb 1) [Serve (Do (AddInput 0 5)); Serve (Do (AddInput 1 7)); Reload true] = Ok y /\ sf_eq (Nat.eqb 1) x y = Ok false)
  /\ (exists x y, sf_life (Nat.eqb 0) [Serve (Do (AddInput 0 5)); Serve (Do (AddInput 1 7))] = Ok x
     /\ sf_life (Nat.eqb 0) [Serve (Do (AddInput 0 5)); Serve (Do (AddInput 1 7)); Reload true] = Ok y /\ sf_eq (Nat.eqb 0) x y = Ok true).
Proof. split; do 2 eexists; (split; [vm_compute; reflexivity|]); (split; [vm_compute; reflexivity|]); vm_compute; reflexivity. Qed.

Print Assumptions C48_resume_refuted.
Print Assumptions C48_equal_continue_refuted.
Print Assumptions C48_file_input_refuted.

(** What a state goes through: actions, displays, copies, saves. *)
From Coq Require Import String Bool ZArith Arith Lia Permutation List.
From Verif Require Import Base BaseProofs ExecModel ExecSpec ExecStruct ExecRuntime ExecProofs ExecRun ExecSim
  BranchModel BranchSpec BranchProofs BranchEval BranchShow BranchRun StateModel StateSpec StateProofs.
Import ListNotations.

Section B.
Context {V D : Type}.
Variable w : workflow.
Hypothesis WF : well_formed w.
Variable default : nat -> option V.
Variable lock_flag : nat -> bool.
Hypothesis LS : locks_sound default lock_flag.
Variable type_ok : nat -> V -> bool.
Variable evaluate : nat -> list V -> res (list V).
Variable set_order : nat -> list nat -> list nat.
Hypothesis SO : forall b l, Permutation (set_order b l) l.
Variable o : nat.
Hypothesis OUT : output w = Some o.
Variables displays exports : list nat.
Hypothesis VD : forall c, In c displays -> c < List.length (blocks w).
Hypothesis VE : forall c, In c exports -> c < List.length (blocks w).
Variable selector : nat -> string.

Notation state := (state V).
Notation wstate := (@wstate V).
Notation activate_inputs := (activate_inputs w default lock_flag type_ok).
Notation activable_blocks := (activable_blocks w default lock_flag set_order).
Notation evaluate_branch := (evaluate_branch w default lock_flag type_ok evaluate set_order).
Notation branch_rounds := (branch_rounds w default lock_flag evaluate set_order).
Notation show := (show w default lock_flag type_ok evaluate set_order selector).
Notation serve := (serve w default lock_flag type_ok evaluate set_order displays exports selector).
Notation memorized_pipes := (memorized_pipes w default lock_flag set_order displays exports).
Notation construct := (construct w default lock_flag type_ok set_order displays exports).
Notation copy := (copy w default lock_flag type_ok set_order displays exports).
Notation settled := (settled w default type_ok).
Notation into := (into w).
Notation read_later := (read_later w).
Notation given_pipe := (given_pipe w).

(** ** Requests on states that differ by values nobody reads *)
Definition same_out {T} (K : nat -> Prop) (a b : res (state * T)) : Prop :=
  match a, b with
  | Ok (s, x), Ok (r, y) => sim K s r /\ read_later K s /\ x = y
  | Err e, Err f => e = f
  | _, _ => False
  end.

Lemma block_values_blk n (s s' : state) ys : evaluate_block_values w evaluate n s = Ok (s', ys) -> s_blk s' = upd (s_blk s) n true.
Proof. intros E. apply values_block in E. eapply evaluate_block_blk; eauto. Qed.

Lemma step_all K bs : forall s r ev, sim K s r -> read_later K s -> (forall n p, In n bs -> into p n -> K p) ->
  same_out K (evaluate_all w evaluate bs s ev) (evaluate_all w evaluate bs r ev).
Proof.
  induction bs as [|b bs IH]; intros s r ev H RL HK; cbn [evaluate_all]; [simpl; auto|].
  pose proof (sim_block w WF type_ok evaluate o K b s r H (fun p => HK b p (or_introl eq_refl))) as Q. pose proof (block_values_blk b s) as B.
  destruct (evaluate_block_values w evaluate b s) as [[s1 xs]|e], (evaluate_block_values w evaluate b r) as [[r1 ys]|e'];
    cbn [bind fst snd]; auto; try contradiction. destruct Q as [Q ->]. apply IH; auto.
  - eapply read_later_mono; [|exact RL]. intros m Bm. rewrite (B _ _ eq_refl). unfold upd. destruct (Nat.eqb m b); auto.
  - intros n p I. apply HK. simpl. auto.
Qed.

Lemma step_rounds K n bs : forall s r ev, sim K s r -> read_later K s -> 
  same_out K (branch_rounds n bs s ev) (branch_rounds n bs r ev).
Proof.
  induction n as [|n IH]; intros s r ev H RL; cbn [BranchModel.branch_rounds]; [simpl; auto|].
  destruct (Nat.eqb (List.length ev) (List.length bs)); [simpl; auto|].
  rewrite <- (sim_activable w default lock_flag set_order K s r H).
  destruct (activable_In w WF default lock_flag LS type_ok evaluate set_order SO (fun _ => None) o OUT s) as [rt [_ [_ [l [El Cl]]]]].
  rewrite El. cbn [bind].
  match goal with |- same_out K (bind (evaluate_all _ _ ?f _ _) _) _ => pose proof (step_all K f s r ev H RL) as Q end.
  assert (HK : forall m p, In m (filter (fun b => memb Nat.eqb b l && match lookup b ev with Some _ => false | None => true end) bs) -> into p m -> K p).
  { intros m p I P. apply filter_In in I. destruct I as [_ I]. apply andb_true_iff in I. destruct I as [I _].
    apply (memb_In _ nat_eqb_iff) in I. apply Cl in I. destruct I as [_ [_ NB]].
    destruct (RL m p P) as [?|[? ?]]; auto. destruct NB; [congruence|contradiction]. }
  specialize (Q HK). unfold same_out in Q.
  destruct (evaluate_all w evaluate _ s ev) as [[s1 e1]|e], (evaluate_all w evaluate _ r ev) as [[r1 e2]|e'];
    cbn [bind fst snd]; auto; try contradiction. destruct Q as [Q1 [Q2 ->]]. auto.
Qed.

Lemma step_branch K bs s r : sim K s r -> read_later K s -> same_out K (evaluate_branch bs s) (evaluate_branch bs r).
Proof.
  intros H RL. unfold BranchModel.evaluate_branch. pose proof (step_inputs w default lock_flag type_ok evaluate o K false s r H RL) as Q. unfold same_step in Q.
  destruct (activate_inputs false s) as [s1|], (activate_inputs false r) as [r1|]; cbn [bind]; auto; try contradiction.
  destruct Q as [H1 RL1]. rewrite (sim_activable w default lock_flag set_order K s1 r1 H1).
  destruct (activable_blocks r1) as [act|e]; cbn [bind]; [|reflexivity].
  destruct (existsb _ bs); [|reflexivity]. apply (step_rounds K (S (List.length bs))); auto.
Qed.

Lemma step_show K known b s r : sim K s r -> read_later K s ->
  match show known b s, show known b r with
  | Ok (x, s'), Ok (y, r') => x = y /\ sim K s' r' /\ read_later K s'
  | Err e, Err f => e = f
  | _, _ => False
  end.
Proof.
  intros H RL. unfold BranchModel.show. destruct (b <? List.length (blocks w)); auto.
  destruct (branch_by_selector _ _ _ _ _ known) as [d|]; cbn [bind]; auto.
  destruct (get_branch (selector b) d) as [br|]; cbn [of_option bind]; auto.
  pose proof (step_branch K br s r H RL) as Q. unfold same_out in Q.
  destruct (evaluate_branch br s) as [[s1 e1]|e], (evaluate_branch br r) as [[r1 e2]|e']; cbn [bind fst snd]; auto; try contradiction.
  destruct Q as [Q1 [Q2 ->]]. destruct (lookup b e2) as [ys|]; cbn [of_option bind]; auto.
  destruct (nth_error ys 0); cbn [of_option bind]; auto.
Qed.

Lemma step_serve K q s r sh : sim K s r -> read_later K s -> same_out K (serve (s, sh) q) (serve (r, sh) q).
Proof.
  intros H RL. destruct q as [a|b|b]; cbn [BranchModel.serve fst snd].
  - pose proof (step_act w WF default lock_flag LS type_ok evaluate set_order SO o OUT K a s r H RL) as Q. unfold same_step in Q.
    destruct (act _ _ _ _ _ _ s a) as [s1|], (act _ _ _ _ _ _ r a) as [r1|]; cbn [bind]; simpl; auto; try contradiction. destruct Q; auto.
  - unfold block_display. pose proof (step_inputs w default lock_flag type_ok evaluate o K false s r H RL) as Q. unfold same_step in Q.
    destruct (activate_inputs false s) as [s1|], (activate_inputs false r) as [r1|]; cbn [bind]; auto; try contradiction.
    destruct Q as [H1 RL1]. pose proof (step_show K displays b s1 r1 H1 RL1) as Q.
    destruct (show displays b s1) as [[x s2]|], (show displays b r1) as [[y r2]|]; cbn [bind fst snd]; simpl; auto; try contradiction.
    destruct Q as [-> [Q1 Q2]]. auto.
  - unfold export. pose proof (step_show K exports b s r H RL) as Q.
    destruct (show exports b s) as [[x s2]|], (show exports b r) as [[y r2]|]; cbn [bind fst snd]; simpl; auto; try contradiction.
    destruct Q as [-> [Q1 Q2]]. auto.
Qed.

Lemma step_serves K qs : forall s r sh, sim K s r -> read_later K s -> same_out K (foldM serve qs (s, sh)) (foldM serve qs (r, sh)).
Proof.
  induction qs as [|q qs IH]; intros s r sh H RL; cbn [foldM]; [simpl; auto|].
  pose proof (step_serve K q s r sh H RL) as Q. unfold same_out in Q.
  destruct (serve (s, sh) q) as [[s1 sh1]|], (serve (r, sh) q) as [[r1 sh2]|]; cbn [bind]; auto; try contradiction.
  destruct Q as [Q1 [Q2 ->]]. auto.
Qed.

(** ** Lives *)
Variable ser : V -> res D.
Variable deser : D -> res V.
Variable file_input : nat -> bool.
Variable file_value : V -> bool.
Variable is_none : V -> bool.
Hypothesis RT : forall x d, ser x = Ok d -> deser d = Ok x.
Hypothesis FT : forall v z, In v (inputs w) -> file_input v = true -> default v = Some z -> type_ok v z = true.

Notation to_dict := (to_dict w default lock_flag set_order displays exports ser file_input file_value is_none).
Notation dict_to_object := (dict_to_object w default lock_flag type_ok set_order displays exports deser).
Notation step := (step w default lock_flag type_ok evaluate set_order displays exports selector ser deser file_input file_value is_none).
Notation life := (life w default lock_flag type_ok evaluate set_order displays exports selector ser deser file_input file_value is_none).
Notation restored := (restored w default ser file_input file_value is_none).

Lemma construct_settled run (s : state) flags y : construct run s flags = Ok y -> settled (core y).
Proof.
  unfold StateModel.construct, BranchModel.workflow_run. destruct run.
  - destruct memorized_pipes as [m|]; cbn [bind]; [|discriminate].
    destruct (activate_inputs false _) as [s'|] eqn:E; cbn [bind]; [|discriminate]. intros Q. inversion Q; subst. simpl.
    eapply (inputs_settled w WF default lock_flag type_ok evaluate o); eauto.
  - destruct (activate_inputs false _) as [s'|] eqn:E; cbn [bind]; [|discriminate]. intros Q. inversion Q; subst. simpl.
    eapply (inputs_settled w WF default lock_flag type_ok evaluate o); eauto.
Qed.

Lemma sim_tidy K (s r : state) : sim K s r -> tidy w s -> tidy w r.
Proof.
  intros [] []. constructor.
  - intros v. rewrite <- m_var. auto.
  - intros b. rewrite <- m_blk. auto.
  - intros i. rewrite <- m_iv. auto.
  - intros b. rewrite <- m_log. auto.
Qed.

Lemma restored_tidy memo (x y : wstate) : restored memo x y -> tidy w (core x) -> tidy w (core y).
Proof.
  intros R []. constructor.
  - intros v. rewrite (r_var _ _ _ _ _ _ _ _ _ R). auto.
  - intros b. rewrite (r_blk _ _ _ _ _ _ _ _ _ R). auto.
  - intros i H. destruct (nth_error (inputs w) i) as [v|] eqn:N; [apply nth_error_Some; congruence|].
    rewrite (r_iv' _ _ _ _ _ _ _ _ _ R i N) in H. congruence.
  - intros b. rewrite (r_log _ _ _ _ _ _ _ _ _ R). auto.
Qed.

Lemma step_ok (x y : wstate) op : settled (core x) -> tidy w (core x) -> step x op = Ok y -> settled (core y) /\ tidy w (core y).
Proof.
  intros S T. destruct (memorized w WF default lock_flag LS type_ok evaluate set_order SO o OUT displays exports VD VE selector file_input) as [memo [EM _]].
  destruct op as [q| |up|]; cbn [StateModel.step].
  - destruct (serve (core x, []) q) as [[s sh]|] eqn:E; cbn [bind fst]; [|discriminate]. intros Q. inversion Q; subst. cbn [core]. split.
    + apply (serve_settled w WF default lock_flag type_ok evaluate set_order o selector displays exports _ _ _ _ S E).
    + apply (serve_tidy w WF default lock_flag type_ok evaluate set_order o selector displays exports _ _ _ _ T E).
  - intros E. destruct (copy_ok w WF default lock_flag LS type_ok evaluate set_order o displays exports selector ser file_input file_value is_none x memo S T EM) as [z [Ez [_ [Sz _]]]].
    rewrite E in Ez. inversion Ez; subst z. split; [|eapply sim_tidy; eauto].
    unfold StateModel.copy in E. destruct (copied_values w (core x)) as [m|]; cbn [bind] in E; [|discriminate].
    destruct (copied_flags w (core x)) as [f|]; cbn [bind] in E; [|discriminate]. eapply construct_settled; eauto.
  - destruct (to_dict up x) as [d|] eqn:Ed; cbn [bind]; [|discriminate]. intros E.
    destruct (read_back w WF default lock_flag LS type_ok evaluate set_order o displays exports selector ser deser file_input file_value is_none RT FT up x d memo S T EM Ed)
      as [z [Ez Rz]].
    rewrite E in Ez. inversion Ez; subst z. split; [|eapply restored_tidy; eauto].
    unfold StateModel.dict_to_object in E.
    repeat match type of E with bind ?m _ = _ => destruct m; cbn [bind] in E; [|discriminate] end.
    eapply construct_settled; eauto.
  - destruct (completed _ _ _ _ (core x)) as [c|]; cbn [bind]; [|discriminate]. destruct c; [|discriminate]. intros E.
    destruct (construct_ok w WF default lock_flag LS type_ok evaluate set_order o displays exports selector ser file_input file_value is_none true (core x) (core x) (pipe_flag x) memo S (sim_refl _ _) EM)
      as [z [Ez [_ [_ [Sz _]]]]].
    rewrite E in Ez. inversion Ez; subst z. split; [eapply construct_settled; eauto|eapply sim_tidy; eauto].
Qed.

Lemma life_ok iv ops (x : wstate) : (forall i, iv i <> None -> i < List.length (inputs w)) -> life iv ops = Ok x ->
  settled (core x) /\ tidy w (core x).
Proof.
  intros Hiv. unfold StateModel.life, start_run. destruct (activate_inputs false _) as [s0|] eqn:E0; cbn [bind]; [|discriminate].
  assert (I : settled (core (mkWS s0 (fun _ => false) false)) /\ tidy w (core (mkWS s0 (fun _ => false) false))).
  { simpl. split; [eapply (inputs_settled w WF default lock_flag type_ok evaluate o); eauto|].
    eapply (inputs_tidy w WF default lock_flag type_ok evaluate o); [|exact E0]. constructor; simpl; auto; try discriminate. contradiction. }
  revert I. generalize (mkWS s0 (fun _ : nat => false) false). clear E0.
  induction ops as [|op ops IH]; intros z [S T] E; cbn [foldM] in E; [inversion E; subst; auto|].
  destruct (step z op) as [z1|] eqn:E1; cbn [bind] in E; [|discriminate]. apply (IH z1); auto. eapply step_ok; eauto.
Qed.

(** ** Copies and saved states behave as the original *)
Lemma real_later (s : state) : read_later (real_pipe w) s.
Proof. intros n p [bn [q [t [_ [_ N]]]]]. left. unfold real_pipe. apply nth_error_Some. congruence. Qed.

Lemma given_dec (s : state) p : given_pipe s p \/ ~ given_pipe s p.
Proof.
  destruct (nth_error (pipes w) p) as [[q t]|] eqn:Np; [|right; intros [i [v [t [_ [N _]]]]]; congruence].
  destruct (in_dec Nat.eq_dec q (inputs w)) as [J|J].
  - apply In_nth_error in J. destruct J as [i Ni]. destruct (s_iv s i) eqn:Si.
    + left. exists i, q, t. rewrite Si. repeat split; auto. discriminate.
    + right. intros [j [v [t' [Nj [Np' G]]]]]. rewrite Np in Np'. inversion Np'; subst.
      assert (j = i) by (eapply (inputs_index_inj w WF); eauto). congruence.
  - right. intros [j [v [t' [Nj [Np' G]]]]]. rewrite Np in Np'. inversion Np'; subst. apply J. eapply nth_error_In; eauto.
Qed.

Lemma copy_sim (x y : wstate) memo : settled (core x) -> tidy w (core x) -> memorized_pipes = Ok memo -> copy x = Ok y ->
  sim (fun p => real_pipe w p /\ (is_run x = true -> s_pipe (core x) p <> None -> In p memo \/ given_pipe (core x) p)) (core x) (core y).
Proof.
  intros S T EM E. destruct (copy_ok w WF default lock_flag LS type_ok evaluate set_order o displays exports selector ser file_input file_value is_none x memo S T EM) as [z [Ez [_ [Sz [Pz _]]]]].
  rewrite E in Ez. inversion Ez; subst z. destruct Sz. constructor; auto. intros p [R H].
  destruct (given_dec (core x) p) as [G|G]; auto. rewrite (Pz p R G). destruct (is_run x); auto.
  destruct (memb Nat.eqb p memo) eqn:M; auto. apply (memb_In_false _ nat_eqb_iff) in M.
  destruct (s_pipe (core x) p) eqn:Sp; auto. exfalso. destruct H as [?|?]; auto. congruence.
Qed.

Lemma restored_sim (x y : wstate) memo : settled (core x) -> tidy w (core x) -> restored memo x y ->
  (forall i v, nth_error (inputs w) i = Some v -> file_input v = true -> s_iv (core x) i = None) ->
  (forall z, s_out (core x) = Some z -> is_none z = false) ->
  sim (fun p => given_pipe (core x) p \/ real_pipe w p /\ (forall z, s_pipe (core x) p = Some z -> savable ser file_value memo p z)) (core x) (core y).
Proof.
  intros S T R NF NO.
  assert (IV : forall i, s_iv (core x) i = s_iv (core y) i).
  { intros i. destruct (nth_error (inputs w) i) as [v|] eqn:N.
    - rewrite (r_iv _ _ _ _ _ _ _ _ _ R i v N). destruct (file_input v) eqn:Fv; auto. rewrite (NF i v N Fv).
      specialize (S i v N). unfold settled_at in S. rewrite (NF i v N Fv) in S. auto.
    - rewrite (r_iv' _ _ _ _ _ _ _ _ _ R i N). destruct (s_iv (core x) i) eqn:Si; auto. exfalso.
      apply nth_error_None in N. assert (i < List.length (inputs w)) by (apply (t_iv _ _ T); congruence). lia. }
  assert (GV : forall p, given_pipe (core x) p -> s_pipe (core x) p = s_pipe (core y) p).
  { intros p [i [v [t [Ni [Np G]]]]]. specialize (S i v Ni). unfold settled_at in S. destruct (s_iv (core x) i) as [z|] eqn:Si; [|congruence].
    rewrite (proj2 (proj2 (proj2 S) p t Np)). symmetry. eapply (r_in _ _ _ _ _ _ _ _ _ R); eauto. rewrite <- IV. auto. }
  constructor; auto.
  - intros v. symmetry. apply (r_var _ _ _ _ _ _ _ _ _ R).
  - intros b. symmetry. apply (r_blk _ _ _ _ _ _ _ _ _ R).
  - rewrite (r_out _ _ _ _ _ _ _ _ _ R). destruct (s_out (core x)) as [z|]; auto. rewrite (NO z eq_refl). auto.
  - symmetry. apply (r_log _ _ _ _ _ _ _ _ _ R).
  - intros p [G|[RP H]]; auto. destruct (given_dec (core y) p) as [G|G].
    + apply GV. destruct G as [i [v [t [Ni [Np G]]]]]. exists i, v, t. rewrite IV. auto.
    + destruct (s_pipe (core x) p) as [z|] eqn:Sp.
      * symmetry. apply (r_kept _ _ _ _ _ _ _ _ _ R); auto.
      * symmetry. apply (r_lost _ _ _ _ _ _ _ _ _ R); auto. intros z. rewrite Sp. discriminate.
Qed.

(** ** When a state is saved *)
Lemma mapM_some {A B} (f : A -> res B) l : (exists ll, mapM f l = Ok ll) <-> (forall a, In a l -> exists b, f a = Ok b).
Proof.
  induction l as [|a l IH]; cbn [mapM].
  - split; [intros _ a []|eauto].
  - split.
    + intros [ll E]. destruct (f a) as [b|] eqn:Fa; cbn [bind] in E; [|discriminate].
      destruct (mapM f l) as [bs|] eqn:Fl; cbn [bind] in E; [|discriminate]. intros c [<-|J]; eauto. apply IH; eauto.
    + intros H. destruct (H a (or_introl eq_refl)) as [b Eb]. rewrite Eb. cbn [bind].
      destruct (proj2 IH (fun c J => H c (or_intror J))) as [bs Es]. rewrite Es. cbn [bind]. eauto.
Qed.

Lemma bind_some {A B} (m : res A) (f : A -> res B) : (exists b, bind m f = Ok b) <-> exists a, m = Ok a /\ exists b, f a = Ok b.
Proof. destruct m as [a|e]; cbn [bind]; split; [eauto|intros [a' [E H]]; inversion E; subst; auto|intros [? E]; discriminate|intros [a' [E H]]; discriminate]. Qed.

Lemma saving up (x : wstate) memo : tidy w (core x) -> memorized_pipes = Ok memo ->
  (exists d, to_dict up x = Ok d) <->
  (forall i v z, nth_error (inputs w) i = Some v -> s_iv (core x) i = Some z -> file_input v = false -> exists d, ser z = Ok d)
  /\ (forall z, s_out (core x) = Some z -> is_none z = false -> exists d, ser z = Ok d)
  /\ (forall p z, real_pipe w p -> In p memo -> s_pipe (core x) p = Some z -> file_value z = false ->
        (exists d, ser z = Ok d) \/ up = true /\ ser z = Err SerializationError).
Proof.
  intros T EM.
  assert (LG : exists l, mapM (fun b => if b <? List.length (blocks w) then Ok b else Err KeyError) (evaluated (core x)) = Ok l).
  { apply mapM_some. intros b J. apply (t_log _ _ T), Nat.ltb_lt in J. rewrite J. eauto. }
  assert (VR : exists l, mapM (variable_indices w) (filter (s_var (core x)) (variables w)) = Ok l).
  { apply mapM_some. intros v J. apply filter_In in J. destruct (indices_exists w WF v (proj1 J)) as [a [Ea _]]. eauto. }
  assert (SI : (exists l, saved_inputs w ser file_input (core x) = Ok l) <->
    forall i v z, nth_error (inputs w) i = Some v -> s_iv (core x) i = Some z -> file_input v = false -> exists d, ser z = Ok d).
  { unfold saved_inputs. rewrite bind_some. transitivity (exists a, mapM (fun iv : nat * nat =>
                    match s_iv (core x) (fst iv) with
                    | Some x => if file_input (snd iv) then Ok [] else let* d := ser x in Ok [(fst iv, d)]
                    | None => Ok []
                    end) (enumerate (inputs w)) = Ok a); [split; [intros [a [E _]]|intros [a E]; exists a]; eauto|].
    rewrite mapM_some. split.
    - intros H i v z Ni Si Fv. destruct (H (i, v)) as [l E]; [apply enumerate_In; auto|]. cbn [fst snd] in E. rewrite Si, Fv in E.
      destruct (ser z); eauto. discriminate.
    - intros H [i v] J. apply enumerate_In in J. cbn [fst snd]. destruct (s_iv (core x) i) as [z|] eqn:Si; eauto.
      destruct (file_input v) eqn:Fv; eauto. destruct (H i v z J Si Fv) as [d ->]. cbn [bind]. eauto. }
  assert (SV : (exists l, saved_values w ser file_value up memo (core x) = Ok l) <->
    forall p z, real_pipe w p -> In p memo -> s_pipe (core x) p = Some z -> file_value z = false ->
        (exists d, ser z = Ok d) \/ up = true /\ ser z = Err SerializationError).
  { unfold saved_values. rewrite bind_some.
    match goal with |- (exists a, ?m = Ok a /\ _) <-> _ => transitivity (exists a, m = Ok a) end; [split; [intros [a [E _]]|intros [a E]; exists a]; eauto|].
    rewrite mapM_some. split.
    - intros H p z R M Sp Fz. destruct (H p) as [l E]; [apply in_seq; unfold real_pipe in R; lia|]. rewrite Sp, Fz in E.
      apply (memb_In _ nat_eqb_iff) in M. rewrite M in E. cbn [negb andb] in E. destruct (ser z) as [d|e]; [eauto|].
      destruct e; try discriminate. destruct up; auto. discriminate.
    - intros H p J. apply in_seq in J. destruct (s_pipe (core x) p) as [z|] eqn:Sp; eauto.
      destruct (negb (file_value z) && memb Nat.eqb p memo) eqn:B; eauto. apply andb_true_iff in B. destruct B as [B1 B2].
      apply negb_true_iff in B1. apply (memb_In _ nat_eqb_iff) in B2.
      destruct (H p z) as [[d ->]|[-> ->]]; eauto. unfold real_pipe. lia. }
  rewrite <- SI, <- SV. unfold StateModel.to_dict. destruct LG as [lg ->]. cbn [bind]. rewrite bind_some. split.
  - intros [iv [Ei H]]. apply bind_some in H. destruct H as [out [Eo H]]. rewrite EM in H. cbn [bind] in H. apply bind_some in H. destruct H as [vals [Ev _]].
    split; [eauto|]. split; [|eauto]. intros z Sz Nz. rewrite Sz, Nz in Eo. destruct (ser z); eauto. discriminate.
  - intros [[iv Ei] [O [vals Ev]]]. exists iv. split; auto. rewrite bind_some.
    assert (Q : exists out, match s_out (core x) with Some y => if is_none y then Ok None else let* d := ser y in Ok (Some d) | None => Ok None end = Ok out).
    { destruct (s_out (core x)) as [z|]; eauto. destruct (is_none z) eqn:Nz; eauto. destruct (O z eq_refl Nz) as [d ->]. cbn [bind]. eauto. }
    destruct Q as [out Eo]. exists out. split; auto. rewrite EM. cbn [bind]. rewrite Ev. cbn [bind]. destruct VR as [vr ->]. cbn [bind]. eauto.
Qed.

(** ** A value that was not saved *)
Lemma read_key v (s : state) e : read_input w v s = Err e -> e = KeyError.
Proof.
  unfold read_input. destruct (variable_input_pipe w v) as [ip|].
  - destruct (s_pipe s (fst ip)); simpl; congruence.
  - destruct (input_index w v) as [i|]; cbn [of_option bind]; [|congruence]. destruct (s_iv s i); simpl; congruence.
Qed.

Lemma read_missing n b : nth_error (blocks w) n = Some b -> forall ins (s : state), (forall v, In v ins -> In v (b_in b)) ->
  (exists v, In v ins /\ read_input w v s = Err KeyError) -> read_inputs w ins s = Err KeyError.
Proof.
  intros Nb. induction ins as [|u ins IH]; intros s Hi [v [J E]]; [contradiction|]. cbn [read_inputs].
  destruct (read_input w u s) as [x|e] eqn:Eu; cbn [bind]; [|f_equal; eapply read_key; eauto].
  destruct (activate_char w WF u x s) as [s1 [E1 [A [_ [_ [_ [_ G]]]]]]]. unfold fuel in *. rewrite E1. cbn [bind].
  rewrite (IH s1); auto; [intros; apply Hi; simpl; auto|]. destruct J as [->|J]; [congruence|]. exists v. split; auto.
  rewrite <- E. unfold read_input. destruct (variable_input_pipe w v) as [[p [q t]]|] eqn:P.
  - apply (input_pipe_some w WF) in P. destruct P as [P ->]. simpl. rewrite (G p q v P). destruct (Nat.eqb_spec q u); auto.
    subst. exfalso. eapply (wf_source w WF u v b); eauto using nth_error_In. apply Hi. simpl. auto.
  - destruct (input_index w v); simpl; auto. rewrite A. reflexivity.
Qed.

Lemma missing_raises (s : state) n b v : settled s -> nth_error (blocks w) n = Some b ->
  (forall u, In u (b_in b) -> s_var s u = true) -> (s_blk s n = false \/ ~ needed w n) ->
  In v (b_in b) -> read_input w v s = Err KeyError ->
  block_evaluation w default lock_flag type_ok evaluate set_order n s = Err KeyError.
Proof.
  intros S Nb Fl NB Iv E. unfold block_evaluation.
  assert (L : n < List.length (blocks w)) by (apply nth_error_Some; congruence). rewrite (proj2 (Nat.ltb_lt _ _) L).
  destruct (inputs_again w WF default lock_flag LS type_ok s false S (or_introl eq_refl)) as [s1 [E1 S1]]. rewrite E1. cbn [bind].
  destruct (activable_In w WF default lock_flag LS type_ok evaluate set_order SO (fun _ => None) o OUT s1) as [rt [_ [_ [l [El Cl]]]]].
  rewrite El. cbn [bind].
  assert (M : In n l).
  { apply Cl. split; auto. split.
    - unfold block_activable_by_inputs. rewrite Nb. apply forallb_forall. intros u Iu. rewrite <- (m_var _ _ _ S1). auto.
    - rewrite <- (m_blk _ _ _ S1). exact NB. }
  apply (memb_In _ nat_eqb_iff) in M. rewrite M. unfold evaluate_block. rewrite Nb.
  rewrite (read_missing n b Nb (b_in b) s1); auto. exists v. split; auto. rewrite <- E.
  unfold read_input. destruct (variable_input_pipe w v) as [[p [q t]]|] eqn:P.
  - apply (input_pipe_some w WF) in P. destruct P as [P ->]. simpl. rewrite (m_pipe _ _ _ S1); auto. unfold real_pipe. apply nth_error_Some. congruence.
  - destruct (input_index w v); simpl; auto. rewrite (m_iv _ _ _ S1). reflexivity.
Qed.
End B.

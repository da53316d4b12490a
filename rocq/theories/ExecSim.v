(** States that differ in the values of some pipes only; states whose inputs are activated. *)
From Coq Require Import Bool Arith Lia Permutation List.
From Verif Require Import Base BaseProofs ExecModel ExecSpec ExecStruct ExecRuntime ExecProofs ExecRun.
Import ListNotations.

Section B.
Context {V : Type}.
Variable w : workflow.
Hypothesis WF : well_formed w.
Variable default : nat -> option V.
Variable lock_flag : nat -> bool.
Hypothesis LS : locks_sound default lock_flag.
Variable type_ok : nat -> V -> bool.
Variable evaluate : nat -> list V -> res (list V).
Variable set_order : nat -> list nat -> list nat.
Hypothesis SO : forall b l, Permutation (set_order b l) l.
Variable o : nat.
Hypothesis OUT : output w = Some o.

Notation state := (state V).
Notation activate_inputs := (activate_inputs w default lock_flag type_ok).
Notation activate_input := (activate_input w type_ok).
Notation activate_variable := (activate_variable w).
Notation activable_blocks := (activable_blocks w default lock_flag set_order).
Notation runtime_blocks := (runtime_blocks w default lock_flag set_order).
Notation evaluate_block := (evaluate_block w evaluate).
Notation block_evaluation := (block_evaluation w default lock_flag type_ok evaluate set_order).
Notation evaluate_next_block := (evaluate_next_block w default lock_flag type_ok evaluate set_order).
Notation run_loop := (run_loop w default lock_flag type_ok evaluate set_order).
Notation continue_run := (continue_run w default lock_flag type_ok evaluate set_order).
Notation act := (act w default lock_flag type_ok evaluate set_order).

(** Same state, but for the values of the pipes out of [K]. *)
Record sim (K : nat -> Prop) (s r : state) : Prop := {
  m_iv : forall i, s_iv s i = s_iv r i; m_var : forall v, s_var s v = s_var r v; m_blk : forall b, s_blk s b = s_blk r b;
  m_out : s_out s = s_out r; m_log : evaluated s = evaluated r;
  m_pipe : forall p, K p -> s_pipe s p = s_pipe r p }.

Definition simres (K : nat -> Prop) (a b : res state) : Prop :=
  match a, b with Ok s, Ok r => sim K s r | Err e, Err f => e = f | _, _ => False end.

Lemma sim_sub (K K' : nat -> Prop) s r : (forall p, K' p -> K p) -> sim K s r -> sim K' s r.
Proof. intros H []. constructor; auto. Qed.

Lemma sim_set_pipe K p x s r : sim K s r -> sim (fun q => K q \/ q = p) (set_pipe p x s) (set_pipe p x r).
Proof.
  intros []. constructor; simpl; auto. intros q H. unfold upd. destruct (Nat.eqb_spec q p); auto.
  destruct H; [auto|contradiction].
Qed.
Lemma sim_set_var K v s r : sim K s r -> sim K (set_var v s) (set_var v r).
Proof. intros []. constructor; simpl; auto. intros u. unfold upd. destruct (Nat.eqb u v); auto. Qed.
Lemma sim_set_blk K v s r : sim K s r -> sim K (set_blk v s) (set_blk v r).
Proof. intros []. constructor; simpl; auto. intros u. unfold upd. destruct (Nat.eqb u v); auto. Qed.
Lemma sim_set_iv K i x s r : sim K s r -> sim K (set_iv i x s) (set_iv i x r).
Proof. intros []. constructor; simpl; auto. intros j. unfold upd. destruct (Nat.eqb j i); auto. Qed.
Lemma sim_set_out K x s r : sim K s r -> sim K (set_out x s) (set_out x r).
Proof. intros []. constructor; simpl; auto. Qed.
Lemma sim_log K x s r : sim K s r -> sim K (log_block x s) (log_block x r).
Proof. intros []. constructor; simpl; auto. rewrite m_log0; auto. Qed.

Lemma simres_bind K K' a b f g : simres K a b -> (forall s r, sim K s r -> simres K' (f s) (g r)) ->
  simres K' (bind a f) (bind b g).
Proof. destruct a, b; simpl; intros H F; auto; contradiction. Qed.

Lemma sim_variable f : forall v x K s r, sim K s r ->
  simres (fun p => K p \/ f <> 0 /\ In p (map fst (variable_output_pipes w v)))
         (activate_variable f v x s) (activate_variable f v x r).
Proof.
  induction f as [|f IH]; intros v x K s r H; simpl; auto.
  assert (H1 : sim K (if is_output w v then set_out x s else s) (if is_output w v then set_out x r else r))
    by (destruct (is_output w v); auto using sim_set_out).
  revert H1. generalize (if is_output w v then set_out x s else s) (if is_output w v then set_out x r else r). clear s r H.
  intros s r H.
  apply simres_bind with (K := fun p => K p \/ In p (map fst (variable_output_pipes w v))).
  - revert K s r H. induction (variable_output_pipes w v) as [|ip l IHl]; intros K s r H; simpl.
    + eapply sim_sub; [|exact H]. tauto.
    + pose proof (IH (snd (snd ip)) x _ _ _ (sim_set_pipe K (fst ip) x s r H)) as Q.
      destruct (activate_variable f (snd (snd ip)) x (set_pipe (fst ip) x s)) as [s1|e],
        (activate_variable f (snd (snd ip)) x (set_pipe (fst ip) x r)) as [r1|e']; simpl in Q |- *; auto; try contradiction.
      assert (Q2 : sim (fun q => K q \/ q = fst ip) s1 r1) by (eapply sim_sub; [|exact Q]; simpl; tauto).
      pose proof (IHl _ _ _ Q2) as Q3. unfold simres in *. destruct (foldM _ l s1), (foldM _ l r1); auto.
      eapply sim_sub; [|exact Q3]. intros p [Kp|[<-|J]]; tauto.
  - intros s' r' H'. simpl. apply sim_set_var. eapply sim_sub; [|exact H']. simpl. tauto.
Qed.

Lemma sim_variable_same f v x K s r : sim K s r ->
  simres K (activate_variable f v x s) (activate_variable f v x r).
Proof.
  intros H. pose proof (sim_variable f v x K s r H) as Q. unfold simres in *.
  destruct (activate_variable f v x s), (activate_variable f v x r); auto.
  eapply sim_sub; [|exact Q]. simpl. tauto.
Qed.

Lemma sim_fold {A} (F : state -> A -> res state) K l : 
  (forall a s r, sim K s r -> simres K (F s a) (F r a)) -> forall s r, sim K s r -> simres K (foldM F l s) (foldM F l r).
Proof.
  intros H. induction l as [|a l IH]; intros s r S; simpl; auto.
  apply simres_bind with K; auto.
Qed.

Lemma sim_input v x K s r : sim K s r ->
  simres (fun p => K p \/ In p (map fst (variable_output_pipes w v))) (activate_input v x s) (activate_input v x r).
Proof.
  intros H. unfold ExecModel.activate_input. destruct (type_ok v x); [|reflexivity].
  destruct (input_index w v) as [i|]; [|reflexivity].
  apply simres_bind with (fun p => K p \/ In p (map fst (variable_output_pipes w v))).
  - pose proof (sim_variable (fuel w) v x K _ _ (sim_set_iv K i x s r H)) as Q. unfold simres in *.
    destruct (activate_variable (fuel w) v x (set_iv i x s)), (activate_variable (fuel w) v x (set_iv i x r)); auto.
    eapply sim_sub; [|exact Q]. simpl. unfold fuel. intuition.
  - intros s1 r1 H1. apply sim_fold; auto. intros ip s2 r2 H2. unfold activate_pipe.
    apply sim_variable_same. eapply sim_sub; [|apply sim_set_pipe; exact H2]. simpl. auto.
Qed.

(** The value of the inputs is the same afterwards. *)
Lemma variable_iv f : forall v x (s s' : state), activate_variable f v x s = Ok s' -> s_iv s' = s_iv s.
Proof.
  induction f as [|f IH]; intros v x s s' E; simpl in E; [discriminate|].
  assert (Q : forall l s0 s1, foldM (fun (s : state) (ip : nat * (nat * nat)) => activate_variable f (snd (snd ip)) x (set_pipe (fst ip) x s)) l s0 = Ok s1 ->
     s_iv s1 = s_iv s0).
  { induction l as [|ip l IHl]; intros s0 s1 E0; simpl in E0; [inversion E0; auto|].
    destruct (activate_variable f (snd (snd ip)) x (set_pipe (fst ip) x s0)) as [s2|e] eqn:E2; simpl in E0; [|discriminate].
    apply IHl in E0. apply IH in E2. rewrite E0, E2. reflexivity. }
  destruct (foldM _ _ _) as [s1|e] eqn:E1; simpl in E; inversion E; subst. apply Q in E1. simpl. rewrite E1.
  destruct (is_output w v); reflexivity.
Qed.

Definition all_given (s : state) : Prop := forall i v, nth_error (inputs w) i = Some v -> s_iv s i <> None.

Lemma input_given v x (s s' : state) : all_given s -> activate_input v x s = Ok s' -> all_given s'.
Proof.
  intros A E. unfold ExecModel.activate_input in E. destruct (type_ok v x); [|discriminate].
  destruct (input_index w v) as [i|]; [|discriminate].
  destruct (activate_variable (fuel w) v x (set_iv i x s)) as [s1|e] eqn:E1; simpl in E; [|discriminate].
  apply variable_iv in E1.
  assert (Q : forall l s0 s2, foldM (fun (s : state) (ip : nat * (nat * nat)) => activate_pipe w ip x s) l s0 = Ok s2 -> s_iv s2 = s_iv s0).
  { induction l as [|ip l IHl]; intros s0 s2 E0; simpl in E0; [inversion E0; auto|].
    destruct (activate_pipe w ip x s0) as [s3|e] eqn:E3; simpl in E0; [|discriminate].
    unfold activate_pipe in E3. apply variable_iv in E3. apply IHl in E0. rewrite E0, E3. reflexivity. }
  apply Q in E. intros j u N. rewrite E, E1. simpl. unfold upd. destruct (Nat.eqb j i); [discriminate|eauto].
Qed.

Definition from_input (p : nat) : Prop :=
  exists q t, nth_error (pipes w) p = Some (q, t) /\ is_input w q.

Lemma sim_inputs K s r : all_given s -> sim K s r ->
  match activate_inputs false s, activate_inputs false r with
  | Ok s', Ok r' => sim (fun p => K p \/ from_input p) s' r' /\ all_given s'
  | Err e, Err f => e = f
  | _, _ => False
  end.
Proof.
  intros A H. unfold ExecModel.activate_inputs.
  assert (Q : forall l, (forall i v, In (i, v) l -> nth_error (inputs w) i = Some v) -> forall K s r, all_given s -> sim K s r ->
    match foldM (fun (s : state) iv => let (i, v) := iv : nat * nat in
           match s_iv s i with
           | Some x => activate_input v x s
           | None => let* l := locked default lock_flag v in
             match default v with Some d => activate_input v d s | None => Ok s end
           end) l s,
          foldM (fun (s : state) iv => let (i, v) := iv : nat * nat in
           match s_iv s i with
           | Some x => activate_input v x s
           | None => let* l := locked default lock_flag v in
             match default v with Some d => activate_input v d s | None => Ok s end
           end) l r with
    | Ok s', Ok r' => sim (fun p => K p \/ exists i v, In (i, v) l /\ In p (map fst (variable_output_pipes w v))) s' r' /\ all_given s'
    | Err e, Err f => e = f
    | _, _ => False
    end).
  { induction l as [|[i v] l IH]; intros Hl K0 s0 r0 A0 H0.
    - simpl. split; auto. eapply sim_sub; [|exact H0]. intros p [?|[i [v [[] _]]]]; auto.
    - cbn [foldM]. rewrite <- (m_iv _ _ _ H0). destruct (s_iv s0 i) as [x|] eqn:Ei; [|exfalso; exact (A0 i v (Hl i v (or_introl eq_refl)) Ei)].
      pose proof (sim_input v x K0 s0 r0 H0) as S1. pose proof (input_given v x s0) as AG.
      destruct (activate_input v x s0) as [s1|e], (activate_input v x r0) as [r1|e']; simpl in S1; cbn [bind]; auto; try contradiction.
      specialize (IH (fun j u J => Hl j u (or_intror J)) _ s1 r1 (AG s1 A0 eq_refl) S1).
      destruct (foldM _ l s1), (foldM _ l r1); auto. destruct IH as [IH1 IH2]. split; auto.
      eapply sim_sub; [|exact IH1]. intros p [Kp|[j [u [[J|J] Iu]]]].
      + left. left. exact Kp.
      + inversion J; subst. left. right. exact Iu.
      + right. exists j, u. auto. }
  specialize (Q (enumerate (inputs w)) (fun i v I => proj1 (enumerate_In _ i v) I) K s r A H).
  destruct (foldM _ (enumerate (inputs w)) s), (foldM _ (enumerate (inputs w)) r); auto.
  destruct Q as [Q1 Q2]. split; auto. eapply sim_sub; [|exact Q1].
  intros p [Kp|[q [t [N Iq]]]]; [auto|]. right. apply (inputs_In w WF) in Iq. apply In_nth_error in Iq. destruct Iq as [i Ni].
  exists i, q. split; [apply enumerate_In; auto|]. apply in_map_iff. exists (p, (q, t)). split; auto.
  apply output_pipes_In. auto.
Qed.

(** ** Blocks *)
Definition into (p n : nat) : Prop :=
  exists bn q t, nth_error (blocks w) n = Some bn /\ In t (b_in bn) /\ nth_error (pipes w) p = Some (q, t).

Lemma sim_read K ins : forall s r, sim K s r ->
  (forall v p q, In v ins -> nth_error (pipes w) p = Some (q, v) -> K p) ->
  match read_inputs w ins s, read_inputs w ins r with
  | Ok (s', xs), Ok (r', ys) => sim K s' r' /\ xs = ys
  | Err e, Err f => e = f
  | _, _ => False
  end.
Proof.
  induction ins as [|v ins IH]; intros s r H HK; [simpl; auto|]. cbn [read_inputs].
  assert (E : read_input w v s = read_input w v r).
  { unfold read_input. destruct (variable_input_pipe w v) as [[p [q t]]|] eqn:P.
    - apply (input_pipe_some w WF) in P. destruct P as [P ->]. simpl. rewrite (m_pipe _ _ _ H p); auto.
      eapply HK; eauto. simpl; auto.
    - destruct (input_index w v) as [j|]; simpl; [rewrite (m_iv _ _ _ H)|]; reflexivity. }
  rewrite E. destruct (read_input w v r) as [x|e]; cbn [bind]; auto.
  pose proof (sim_variable_same (fuel w) v x K s r H) as S1.
  destruct (activate_variable (fuel w) v x s) as [s1|e], (activate_variable (fuel w) v x r) as [r1|e']; simpl in S1; cbn [bind]; auto; try contradiction.
  specialize (IH s1 r1 S1 (fun u p q I => HK u p q (or_intror I))).
  destruct (read_inputs w ins s1) as [[s2 xs]|], (read_inputs w ins r1) as [[r2 ys]|]; cbn [bind fst snd]; auto.
  destruct IH as [? ->]. auto.
Qed.


Lemma sim_activate_block K n outs ys s r : sim K s r ->
  simres K (activate_block w n outs ys s) (activate_block w n outs ys r).
Proof.
  intros H. unfold activate_block. apply simres_bind with K; [|intros; simpl; apply sim_set_blk; auto].
  apply sim_fold; auto. intros a s2 r2 H2. apply sim_variable_same; auto.
Qed.

Lemma sim_evaluate_block K n s r : sim K s r -> (forall p, into p n -> K p) ->
  simres K (evaluate_block n s) (evaluate_block n r).
Proof.
  intros H HK. unfold ExecModel.evaluate_block. destruct (nth_error (blocks w) n) as [b|] eqn:N; [|reflexivity].
  pose proof (sim_read K (b_in b) s r H) as R.
  assert (HK' : forall v p q, In v (b_in b) -> nth_error (pipes w) p = Some (q, v) -> K p).
  { intros v p q I P. apply HK. exists b, q, v. auto. }
  specialize (R HK'). destruct (read_inputs w (b_in b) s) as [[s1 xs]|e], (read_inputs w (b_in b) r) as [[r1 ys]|e'];
    cbn [bind fst snd]; try exact R; try contradiction. destruct R as [R ->].
  destruct (evaluate n ys) as [zs|e]; cbn [bind]; [|reflexivity].
  apply sim_activate_block. apply sim_log; auto.
Qed.

Lemma sim_activable K s r : sim K s r -> activable_blocks s = activable_blocks r.
Proof.
  intros H. unfold ExecModel.activable_blocks. destruct runtime_blocks as [rt|e]; cbn [bind]; auto. f_equal.
  apply filter_ext. intros n. rewrite (m_blk _ _ _ H). f_equal. unfold block_activable_by_inputs.
  destruct (nth_error (blocks w) n) as [bl|]; auto.
  induction (b_in bl) as [|v l IH]; simpl; auto. rewrite (m_var _ _ _ H), IH. reflexivity.
Qed.

Lemma sim_inputs_same K c s r : sim K s r -> simres K (activate_inputs c s) (activate_inputs c r).
Proof.
  intros H. unfold ExecModel.activate_inputs. apply sim_fold; auto. clear s r H. intros [i v] s r H.
  rewrite (m_iv _ _ _ H).
  assert (Q : forall x, simres K (activate_input v x s) (activate_input v x r)).
  { intros x. pose proof (sim_input v x K s r H) as S1. unfold simres in *.
    destruct (activate_input v x s), (activate_input v x r); auto. eapply sim_sub; [|exact S1]. simpl; auto. }
  destruct (s_iv r i) as [x|]; auto. destruct (locked default lock_flag v) as [l|e]; cbn [bind]; [|reflexivity].
  destruct (default v); auto. destruct c; [reflexivity|exact H].
Qed.

(** ** What operations keep *)
Lemma foldM_keeps {A T} (F : state -> A -> res state) (f : state -> T) l :
  (forall a s s', In a l -> F s a = Ok s' -> f s' = f s) -> forall s s', foldM F l s = Ok s' -> f s' = f s.
Proof.
  induction l as [|a l IH]; intros H s s' E; cbn [foldM] in E; [inversion E; auto|].
  destruct (F s a) as [s1|e] eqn:E1; cbn [bind] in E; [|discriminate].
  rewrite (IH (fun b s0 s2 J => H b s0 s2 (or_intror J)) s1 s' E). apply (H a); simpl; auto.
Qed.

Lemma variable_blk f : forall v x (s s' : state), activate_variable f v x s = Ok s' -> s_blk s' = s_blk s.
Proof.
  induction f as [|f IH]; intros v x s s' E; simpl in E; [discriminate|].
  destruct (foldM _ _ _) as [s1|e] eqn:E1; simpl in E; inversion E; subst.
  apply (foldM_keeps _ (@s_blk V)) in E1; [simpl; rewrite E1; destruct (is_output w v); reflexivity|].
  intros a s2 s3 _ E2. apply IH in E2. rewrite E2. reflexivity.
Qed.

Lemma input_blk v x (s s' : state) : activate_input v x s = Ok s' -> s_blk s' = s_blk s.
Proof.
  unfold ExecModel.activate_input. destruct (type_ok v x); [|discriminate].
  destruct (input_index w v) as [i|]; [|discriminate].
  destruct (activate_variable (fuel w) v x (set_iv i x s)) as [s1|e] eqn:E1; cbn [bind]; [|discriminate].
  apply variable_blk in E1. intros E.
  rewrite (foldM_keeps (fun s ip => activate_pipe w ip x s) (@s_blk V) (variable_output_pipes w v)) with (s := s1); auto.
  intros ip s2 s3 _ E3. apply variable_blk in E3. rewrite E3. reflexivity.
Qed.

Lemma inputs_blk c (s s' : state) : activate_inputs c s = Ok s' -> s_blk s' = s_blk s.
Proof.
  intros E. unfold ExecModel.activate_inputs in E. revert s s' E.
  apply (foldM_keeps _ (@s_blk V)). intros [i v] s s' _ E.
  destruct (s_iv s i) as [x|]; [apply input_blk in E; auto|].
  destruct (locked default lock_flag v) as [l|]; cbn [bind] in E; [|discriminate].
  destruct (default v) as [d|]; [apply input_blk in E; auto|].
  destruct c; [discriminate|]. inversion E; auto.
Qed.

Lemma read_blk ins : forall (s s' : state) xs, read_inputs w ins s = Ok (s', xs) -> s_blk s' = s_blk s.
Proof.
  induction ins as [|v ins IH]; intros s0 s1 xs E; [simpl in E; inversion E; auto|]. cbn [read_inputs] in E.
  destruct (read_input w v s0) as [x|]; cbn [bind] in E; [|discriminate].
  destruct (activate_variable (fuel w) v x s0) as [s2|] eqn:E2; cbn [bind] in E; [|discriminate].
  destruct (read_inputs w ins s2) as [[s3 zs]|] eqn:E3; cbn [bind fst snd] in E; [|discriminate]. inversion E; subst.
  apply IH in E3. apply variable_blk in E2. congruence.
Qed.

Lemma evaluate_block_blk n (s s' : state) : evaluate_block n s = Ok s' -> s_blk s' = upd (s_blk s) n true.
Proof.
  unfold ExecModel.evaluate_block. destruct (nth_error (blocks w) n) as [b|]; [|discriminate].
  destruct (read_inputs w (b_in b) s) as [[s1 xs]|] eqn:E1; cbn [bind fst snd]; [|discriminate].
  destruct (evaluate n xs) as [zs|]; cbn [bind]; [|discriminate].
  apply read_blk in E1. unfold activate_block.
  destruct (foldM _ (combine (b_out b) zs) (log_block n s1)) as [s2|] eqn:E2; cbn [bind]; [|discriminate].
  intros E. inversion E; subst. simpl.
  apply (foldM_keeps _ (@s_blk V)) in E2; [rewrite E2; simpl; rewrite E1; reflexivity|].
  intros a s3 s4 _ E4. eapply variable_blk; eauto.
Qed.

(** ** Actions on both *)

(** Every pipe that may still be read is in [K]. *)
Definition read_later (K : nat -> Prop) (s : state) : Prop :=
  forall n p, into p n -> K p \/ (s_blk s n = true /\ needed w n).

Lemma read_later_mono K s s' : (forall n, s_blk s n = true -> s_blk s' n = true) -> read_later K s -> read_later K s'.
Proof. intros M H n p I. destruct (H n p I) as [?|[? ?]]; auto. Qed.

Definition same_step (K : nat -> Prop) (a b : res state) : Prop :=
  match a, b with Ok s, Ok r => sim K s r /\ read_later K s | Err e, Err f => e = f | _, _ => False end.

Lemma same_step_bind K a b f g : same_step K a b ->
  (forall s r, sim K s r -> read_later K s -> same_step K (f s) (g r)) -> same_step K (bind a f) (bind b g).
Proof. destruct a, b; simpl; intros H F; auto; try contradiction. destruct H; auto. Qed.

Lemma same_step_fold {A} (F : state -> A -> res state) K l :
  (forall a s r, sim K s r -> read_later K s -> same_step K (F s a) (F r a)) ->
  forall s r, sim K s r -> read_later K s -> same_step K (foldM F l s) (foldM F l r).
Proof.
  intros H. induction l as [|a l IH]; intros s r S RL; simpl; auto.
  apply same_step_bind; auto.
Qed.

Lemma step_inputs K c s r : sim K s r -> read_later K s -> same_step K (activate_inputs c s) (activate_inputs c r).
Proof.
  intros H RL. pose proof (sim_inputs_same K c s r H) as Q. pose proof (inputs_blk c s) as B.
  unfold simres, same_step in *. destruct (activate_inputs c s) as [s1|], (activate_inputs c r); auto.
  split; auto. eapply read_later_mono; [|exact RL]. rewrite (B s1 eq_refl). auto.
Qed.

Lemma step_block_evaluation K n s r : sim K s r -> read_later K s ->
  match block_evaluation n s, block_evaluation n r with
  | Ok (x, s'), Ok (y, r') => x = y /\ sim K s' r' /\ read_later K s'
  | Err e, Err f => e = f
  | _, _ => False
  end.
Proof.
  intros H RL. unfold ExecModel.block_evaluation. destruct (n <? List.length (blocks w)) eqn:L; auto.
  pose proof (step_inputs K false s r H RL) as Q. unfold same_step in Q.
  destruct (activate_inputs false s) as [s1|], (activate_inputs false r) as [r1|]; cbn [bind]; auto; try contradiction.
  destruct Q as [H1 RL1]. rewrite <- (sim_activable K s1 r1 H1).
  destruct (activable_In w WF default lock_flag LS type_ok evaluate set_order SO (fun _ => None) o OUT s1) as [rt [_ [_ [l [El Cl]]]]].
  rewrite El. cbn [bind]. destruct (memb Nat.eqb n l) eqn:M; cbn [bind]; auto.
  apply (memb_In _ nat_eqb_iff) in M. apply Cl in M. destruct M as [Ln [_ NB]].
  pose proof (sim_evaluate_block K n s1 r1 H1) as E. pose proof (evaluate_block_blk n s1) as B.
  unfold simres in E. specialize (E (fun p I => match RL1 n p I with or_introl k => k
     | or_intror (conj a b) => match NB with or_introl c => False_ind _ (Bool.diff_true_false (eq_trans (eq_sym a) c)) | or_intror c => False_ind _ (c b) end end)).
  destruct (evaluate_block n s1) as [s2|], (evaluate_block n r1) as [r2|]; cbn [bind]; auto; try contradiction.
  split; auto. split; auto. eapply read_later_mono; [|exact RL1]. intros m Bm. rewrite (B s2 eq_refl).
  unfold upd. destruct (Nat.eqb m n); auto.
Qed.

Lemma step_run_loop K n : forall s r, sim K s r -> read_later K s -> same_step K (run_loop n s) (run_loop n r).
Proof.
  induction n as [|n IH]; intros s r H RL; [simpl; auto|]. cbn [ExecModel.run_loop].
  destruct runtime_blocks as [rt|]; cbn [bind]; [|reflexivity].
  rewrite (sim_activable K s r H). destruct (activable_blocks r) as [act|]; cbn [bind]; [|reflexivity].
  destruct (filter (fun b => memb Nat.eqb b act) rt) as [|b bs]; [simpl; auto|].
  apply same_step_bind; [|auto]. apply same_step_fold; auto. intros c s1 r1 H1 RL1.
  pose proof (step_block_evaluation K c s1 r1 H1 RL1) as Q.
  destruct (block_evaluation c s1) as [[x s2]|], (block_evaluation c r1) as [[y r2]|]; cbn [bind]; simpl; auto; try contradiction.
  destruct Q as [_ Q]. exact Q.
Qed.

Lemma step_act K a s r : sim K s r -> read_later K s -> same_step K (act s a) (act r a).
Proof.
  intros H RL. destruct a as [i x|n| |]; simpl.
  - unfold add_input_value. destruct (nth_error (inputs w) i) as [v|]; cbn [of_option bind]; [|reflexivity].
    pose proof (sim_input v x K s r H) as S1. pose proof (input_blk v x s) as B. unfold simres, same_step in *.
    destruct (activate_input v x s) as [s1|], (activate_input v x r); auto. split; [eapply sim_sub; [|exact S1]; simpl; auto|].
    eapply read_later_mono; [|exact RL]. rewrite (B s1 eq_refl). auto.
  - pose proof (step_block_evaluation K n s r H RL) as Q.
    destruct (block_evaluation n s) as [[x s2]|], (block_evaluation n r) as [[y r2]|]; cbn [bind]; simpl; auto; try contradiction.
    destruct Q as [_ Q]. exact Q.
  - unfold ExecModel.evaluate_next_block. pose proof (step_inputs K false s r H RL) as Q. unfold same_step in Q.
    destruct (activate_inputs false s) as [s1|], (activate_inputs false r) as [r1|]; cbn [bind]; simpl; auto; try contradiction.
    destruct Q as [H1 RL1]. rewrite (sim_activable K s1 r1 H1). destruct (activable_blocks r1) as [act|]; cbn [bind]; [|reflexivity].
    destruct act as [|b act]; [simpl; auto|]. pose proof (step_block_evaluation K b s1 r1 H1 RL1) as Q.
    destruct (block_evaluation b s1) as [[x s2]|], (block_evaluation b r1) as [[y r2]|]; cbn [bind]; simpl; auto; try contradiction.
    destruct Q as [_ Q]. exact Q.
  - unfold ExecModel.continue_run. apply same_step_bind; [apply step_inputs; auto|].
    intros s1 r1 H1 RL1. apply step_run_loop; auto.
Qed.

Lemma step_acts K acts : forall s r, sim K s r -> read_later K s -> same_step K (foldM act acts s) (foldM act acts r).
Proof. apply same_step_fold. intros a s r. apply step_act. Qed.

(** ** States whose inputs are activated *)

Lemma activate_pipes_char v x l : (forall ip, In ip l -> In ip (variable_output_pipes w v)) -> forall (s : state),
  exists s', foldM (fun (s : state) ip => activate_pipe w ip x s) l s = Ok s' /\
    s_iv s' = s_iv s /\ s_blk s' = s_blk s /\ evaluated s' = evaluated s /\ s_out s' = s_out s
    /\ (forall u, s_var s' u = true <-> s_var s u = true \/ exists p q, In (p, (q, u)) l)
    /\ (forall p, (In p (map fst l) /\ s_pipe s' p = Some x) \/ (~ In p (map fst l) /\ s_pipe s' p = s_pipe s p)).
Proof.
  intros Hl s. exists (fold_left (push x) l s). split; [|apply push_fold].
  unfold activate_pipe, fuel. apply (foldM_push w WF). intros ip I. apply (out_pipes_targets w WF v). auto.
Qed.

Lemma input_char i v x (s : state) : nth_error (inputs w) i = Some v ->
  if type_ok v x then
    exists s', activate_input v x s = Ok s' /\
      s_iv s' = upd (s_iv s) i (Some x) /\ s_blk s' = s_blk s /\ evaluated s' = evaluated s /\ s_out s' = s_out s
      /\ (forall u, s_var s' u = true <-> s_var s u = true \/ u = v \/ In (v, u) (pipes w))
      /\ (forall p q t, nth_error (pipes w) p = Some (q, t) -> s_pipe s' p = if Nat.eqb q v then Some x else s_pipe s p)
  else activate_input v x s = Err TypeError.
Proof.
  intros N. unfold ExecModel.activate_input. destruct (type_ok v x); auto.
  assert (I := nth_error_In _ _ N). rewrite (proj2 (input_index_some w WF v i I) N).
  destruct (activate_char w WF v x (set_iv i x s)) as [s1 [E1 [A1 [B1 [C1 [D1 [F1 G1]]]]]]].
  rewrite E1. cbn [bind].
  destruct (activate_pipes_char v x (variable_output_pipes w v) (fun ip J => J) s1) as [s2 [E2 [A2 [B2 [C2 [D2 [F2 G2]]]]]]].
  exists s2. split; auto. rewrite A2, B2, C2, D2, A1, B1, C1, D1. simpl.
  split; auto. split; auto. split; auto. split.
  { assert (Q : is_output w v = false); [|rewrite Q; auto]. destruct (is_output w v) eqn:Q; auto. exfalso.
    apply (output_iff w) in Q. destruct (wf_output w WF v Q) as [b [Ib J]]. apply In_nth_error in Ib. destruct Ib as [n Nb].
    exact (input_not_out w WF v n b I Nb J). }
  split.
  - intros u. rewrite F2, F1. simpl. split.
    + intros [H|[p [q H]]]; auto. apply output_pipes_In in H. destruct H as [Np ->]. right. right. eapply nth_error_In; eauto.
    + auto.
  - intros p q t Np. destruct (G2 p) as [[J H]|[J H]]; rewrite H.
    + apply in_map_iff in J. destruct J as [[p' [q' t']] [<- J]]. apply output_pipes_In in J. destruct J as [N' ->].
      simpl in Np. rewrite Np in N'. inversion N'; subst. rewrite Nat.eqb_refl. reflexivity.
    + apply (G1 p q t Np).
Qed.

Lemma inputs_index_inj i j v : nth_error (inputs w) i = Some v -> nth_error (inputs w) j = Some v -> i = j.
Proof.
  intros Ni Nj. pose proof (inputs_nodup w WF) as ND. rewrite NoDup_nth_error in ND. apply ND; [|congruence].
  apply nth_error_Some; congruence.
Qed.

(** The value of input [i], variable [v], went everywhere it should. *)
Definition settled_at (s : state) (i v : nat) : Prop :=
  match s_iv s i with
  | Some x => type_ok v x = true /\ s_var s v = true
      /\ forall p t, nth_error (pipes w) p = Some (v, t) -> s_var s t = true /\ s_pipe s p = Some x
  | None => default v = None
  end.
Definition settled (s : state) : Prop := forall i v, nth_error (inputs w) i = Some v -> settled_at s i v.

Lemma settled_at_mono (s s' : state) i v : s_iv s' i = s_iv s i -> (forall u, s_var s u = true -> s_var s' u = true) ->
  (forall p t, nth_error (pipes w) p = Some (v, t) -> s_pipe s' p = s_pipe s p) -> settled_at s i v -> settled_at s' i v.
Proof.
  unfold settled_at. intros -> Hv Hp. destruct (s_iv s i); auto. intros [T [A B]]. split; auto. split; auto.
  intros p t N. destruct (B p t N). rewrite (Hp p t N). auto.
Qed.

Lemma input_settled i v x (s s' : state) : nth_error (inputs w) i = Some v -> activate_input v x s = Ok s' ->
  settled_at s' i v /\ (forall j u, nth_error (inputs w) j = Some u -> j <> i -> s_iv s' j = s_iv s j /\ (settled_at s j u -> settled_at s' j u)).
Proof.
  intros N E. pose proof (input_char i v x s N) as C. destruct (type_ok v x) eqn:T; [|congruence].
  destruct C as [s1 [E1 [A [B [C [D [F H]]]]]]]. rewrite E in E1. inversion E1; subst s1. clear E1. split.
  - unfold settled_at. rewrite A, upd_same. split; auto. split; [apply F; auto|].
    intros p t Np. split; [apply F; right; right; eapply nth_error_In; eauto|]. rewrite (H p v t Np), Nat.eqb_refl. reflexivity.
  - intros j u Nj Dj. assert (Q : s_iv s' j = s_iv s j) by (rewrite A; apply upd_other; auto). split; auto.
    apply settled_at_mono; auto; [intros; apply F; auto|].
    intros p t Np. rewrite (H p u t Np). destruct (Nat.eqb_spec u v); auto. subst. exfalso. apply Dj. eapply inputs_index_inj; eauto.
Qed.

Lemma enumerate_NoDup {A} (l : list A) : NoDup (map fst (enumerate l)).
Proof.
  assert (Q : forall k, map fst (combine (seq k (List.length l)) l) = seq k (List.length l)).
  { induction l as [|a l IH]; intros k; simpl; auto. rewrite IH. reflexivity. }
  unfold enumerate. rewrite Q. apply seq_NoDup.
Qed.

Lemma inputs_settled c (s s' : state) : activate_inputs c s = Ok s' -> settled s'.
Proof.
  intros E.
  assert (Q : forall l (s s' : state), (forall i v, In (i, v) l -> nth_error (inputs w) i = Some v) -> NoDup (map fst l) ->
    foldM (fun (s : state) iv => let (i, v) := iv : nat * nat in
           match s_iv s i with
           | Some x => activate_input v x s
           | None => let* l := locked default lock_flag v in
             match default v with Some d => activate_input v d s | None => if c then Err ValueError else Ok s end
           end) l s = Ok s' ->
    (forall i v, In (i, v) l -> settled_at s' i v)
    /\ (forall i v, nth_error (inputs w) i = Some v -> ~ In i (map fst l) -> s_iv s' i = s_iv s i /\ (settled_at s i v -> settled_at s' i v))).
  { induction l as [|[i v] l IH]; intros s0 s1 Hl ND F; cbn [foldM] in F.
    - inversion F; subst. split; [intros i v []|auto].
    - inversion ND as [|? ? NI ND']; subst.
      match type of F with bind ?m _ = _ => destruct m as [s2|e] eqn:E2; cbn [bind] in F; [|discriminate] end.
      specialize (IH s2 s1 (fun j u J => Hl j u (or_intror J)) ND' F). destruct IH as [IH1 IH2].
      assert (N := Hl i v (or_introl eq_refl)).
      assert (R : settled_at s2 i v /\ forall j u, nth_error (inputs w) j = Some u -> j <> i -> s_iv s2 j = s_iv s0 j /\ (settled_at s0 j u -> settled_at s2 j u)).
      { destruct (s_iv s0 i) as [x|] eqn:Ei; [eapply input_settled; eauto|].
        destruct (locked default lock_flag v) as [lk|]; cbn [bind] in E2; [|discriminate].
        destruct (default v) as [d|] eqn:Dv; [eapply input_settled; eauto|].
        destruct c; [discriminate|]. inversion E2; subst. split; [unfold settled_at; rewrite Ei; auto|]. auto. }
      destruct R as [R1 R2]. split.
      + intros j u [J|J]; [inversion J; subst|auto]. apply (proj2 (IH2 j u N NI)); auto.
      + intros j u Nj Ni. simpl in Ni. destruct (IH2 j u Nj) as [P1 P2]; [tauto|]. destruct (R2 j u Nj) as [P3 P4]; [intros ->; apply Ni; simpl; auto|].
        split; [congruence|auto]. }
  destruct (Q (enumerate (inputs w)) s s' (fun i v I => proj1 (enumerate_In _ i v) I) (enumerate_NoDup _) E) as [Q1 _].
  intros i v N. apply Q1. apply enumerate_In. auto.
Qed.

(** The pipes that exist. *)
Definition real_pipe (p : nat) : Prop := p < List.length (pipes w).

Lemma real_pipe_nth p : real_pipe p -> exists q t, nth_error (pipes w) p = Some (q, t).
Proof.
  intros L. destruct (nth_error (pipes w) p) as [[q t]|] eqn:N; eauto. apply nth_error_None in N. unfold real_pipe in L. lia.
Qed.

Lemma sim_refl K s : sim K s s. Proof. constructor; auto. Qed.
Lemma sim_trans K a b c : sim K a b -> sim K b c -> sim K a c.
Proof. intros [] []. constructor; intros; try congruence. rewrite m_pipe0 by auto. auto. Qed.
Lemma sim_sym K a b : sim K a b -> sim K b a.
Proof. intros []. constructor; intros; auto. symmetry; auto. Qed.

Lemma sim_settled s r : sim real_pipe s r -> settled s -> settled r.
Proof.
  intros H S i v N. specialize (S i v N). revert S. apply settled_at_mono.
  - symmetry. apply (m_iv _ _ _ H).
  - intros u. rewrite (m_var _ _ _ H). auto.
  - intros p t Np. symmetry. apply (m_pipe _ _ _ H). unfold real_pipe. apply nth_error_Some. congruence.
Qed.

(** Activating the inputs again changes nothing. *)
Lemma inputs_again s c : settled s -> (c = false \/ forall i v, nth_error (inputs w) i = Some v -> s_iv s i <> None) ->
  exists s', activate_inputs c s = Ok s' /\ sim real_pipe s s'.
Proof.
  intros S0 GI. unfold ExecModel.activate_inputs.
  assert (Q : forall l, (forall i v, In (i, v) l -> nth_error (inputs w) i = Some v) -> forall r, sim real_pipe s r ->
    exists s', foldM (fun (s : state) iv => let (i, v) := iv : nat * nat in
           match s_iv s i with
           | Some x => activate_input v x s
           | None => let* l := locked default lock_flag v in
             match default v with Some d => activate_input v d s | None => if c then Err ValueError else Ok s end
           end) l r = Ok s' /\ sim real_pipe s s').
  { induction l as [|[i v] l IH]; intros Hl r H; cbn [foldM]; [eauto|].
    assert (N := Hl i v (or_introl eq_refl)). specialize (IH (fun j u J => Hl j u (or_intror J))).
    assert (R := sim_settled s r H S0 i v N). unfold settled_at in R.
    destruct (s_iv r i) as [x|] eqn:Ei.
    - destruct R as [T [R1 R2]]. pose proof (input_char i v x r N) as C. rewrite T in C.
      destruct C as [s1 [E1 [A [B [C [D [F G]]]]]]]. rewrite E1. cbn [bind]. apply IH.
      apply sim_trans with r; auto. constructor.
      + intros j. rewrite A. unfold upd. destruct (Nat.eqb_spec j i); subst; auto.
      + intros u. destruct (s_var s1 u) eqn:U.
        * apply F in U. destruct U as [U|[->|U]]; auto. apply In_nth_error in U. destruct U as [p Np]. apply (R2 p u Np).
        * destruct (s_var r u) eqn:U'; auto. exfalso. rewrite (proj2 (F u)) in U by auto. discriminate.
      + intros b. rewrite B. auto.
      + auto.
      + auto.
      + intros p L. destruct (real_pipe_nth p L) as [q [t Np]]. rewrite (G p q t Np).
        destruct (Nat.eqb_spec q v); auto. subst. apply (R2 p t Np).
    - rewrite (locked_ok default lock_flag LS). cbn [bind]. rewrite R.
      destruct c; cbn [bind]; auto. destruct GI as [?|GI]; [discriminate|]. exfalso. apply (GI i v N).
      rewrite (m_iv _ _ _ H). exact Ei. }
  apply (Q (enumerate (inputs w)) (fun i v I => proj1 (enumerate_In _ i v) I)). apply sim_refl.
Qed.

(** Activation of anything but an input with another value keeps it. *)
Lemma variable_settled v x (s s' : state) : settled s ->
  (forall i, nth_error (inputs w) i = Some v -> s_iv s i = Some x) ->
  activate_variable (fuel w) v x s = Ok s' -> settled s' /\ s_iv s' = s_iv s.
Proof.
  intros S H E. destruct (activate_char w WF v x s) as [s1 [E1 [A [B [C [D [F G]]]]]]].
  rewrite E in E1. inversion E1; subst s1. split; auto. intros i u N. specialize (S i u N).
  unfold settled_at in *. rewrite A. destruct (s_iv s i) as [y|] eqn:Ei; auto. destruct S as [T [S1 S2]].
  split; auto. split; [apply F; auto|]. intros p t Np. destruct (S2 p t Np) as [S3 S4]. split; [apply F; auto|].
  rewrite (G p u t Np). destruct (Nat.eqb_spec u v); auto. subst. rewrite (H i N) in Ei. congruence.
Qed.

Lemma read_settled n b : nth_error (blocks w) n = Some b -> forall ins (s s' : state) xs, (forall v, In v ins -> In v (b_in b)) ->
  settled s -> read_inputs w ins s = Ok (s', xs) -> settled s'.
Proof.
  intros Nb. induction ins as [|v ins IH]; intros s0 s1 xs Hi S E; [simpl in E; inversion E; subst; auto|]. cbn [read_inputs] in E.
  destruct (read_input w v s0) as [x|] eqn:Ex; cbn [bind] in E; [|discriminate].
  destruct (activate_variable (fuel w) v x s0) as [s2|] eqn:E2; cbn [bind] in E; [|discriminate].
  destruct (read_inputs w ins s2) as [[s3 zs]|] eqn:E3; cbn [bind fst snd] in E; [|discriminate]. inversion E; subst.
  eapply (IH s2 s1 zs); auto; [intros; apply Hi; simpl; auto|].
  eapply (variable_settled v x s0); eauto. intros i N. unfold read_input in Ex.
  assert (I := nth_error_In _ _ N). pose proof (input_not_target w WF v I) as NT.
  rewrite (proj2 (input_pipe_none w WF v) NT) in Ex.
  rewrite (proj2 (input_index_some w WF v i I) N) in Ex. cbn [of_option bind] in Ex.
  destruct (s_iv s0 i); cbn [of_option] in Ex; congruence.
Qed.

Lemma evaluate_block_settled n (s s' : state) : settled s -> evaluate_block n s = Ok s' -> settled s'.
Proof.
  intros S. unfold ExecModel.evaluate_block. destruct (nth_error (blocks w) n) as [b|] eqn:Nb; [|discriminate].
  destruct (read_inputs w (b_in b) s) as [[s1 xs]|] eqn:E1; cbn [bind fst snd]; [|discriminate].
  destruct (evaluate n xs) as [zs|]; cbn [bind]; [|discriminate].
  pose proof (read_settled n b Nb (b_in b) s s1 xs (fun v J => J) S E1) as S1. unfold activate_block.
  destruct (foldM _ (combine (b_out b) zs) (log_block n s1)) as [s2|] eqn:E2; cbn [bind]; [|discriminate].
  intros E. inversion E; subst.
  assert (Q : forall l, (forall a, In a l -> In (fst a) (b_out b)) -> forall (s s' : state), settled s ->
     foldM (fun s (ox : nat * V) => activate_variable (fuel w) (fst ox) (snd ox) s) l s = Ok s' -> settled s').
  { clear - WF Nb. induction l as [|a l IH]; intros Hl s0 s4 S0 F; cbn [foldM] in F; [inversion F; subst; auto|].
    destruct (activate_variable (fuel w) (fst a) (snd a) s0) as [s3|] eqn:E3; cbn [bind] in F; [|discriminate].
    apply (IH (fun c J => Hl c (or_intror J)) s3 s4); auto. eapply variable_settled; eauto.
    intros i N. exfalso. eapply (input_not_out w WF (fst a) n b); eauto; [eapply nth_error_In; eauto|apply Hl; simpl; auto]. }
  apply (Q _ (fun a J => in_combine_l _ _ (fst a) (snd a) (eq_rect _ (fun z => In z _) J _ (surjective_pairing a))) _ s2) in E2; [exact E2|exact S1].
Qed.

Lemma act_settled a (s s' : state) : settled s -> act s a = Ok s' -> settled s'.
Proof.
  assert (BE : forall n (s : state) r, block_evaluation n s = Ok r -> settled (snd r)).
  { clear s s'. intros n s r. unfold ExecModel.block_evaluation. destruct (n <? List.length (blocks w)); [|discriminate].
    destruct (activate_inputs false s) as [s1|] eqn:E1; cbn [bind]; [|discriminate].
    destruct (activable_blocks s1) as [ac|]; cbn [bind]; [|discriminate].
    destruct (memb Nat.eqb n ac).
    - destruct (evaluate_block n s1) as [s2|] eqn:E2; cbn [bind]; [|discriminate]. intros E. inversion E; subst. simpl.
      eapply evaluate_block_settled; eauto. eapply inputs_settled; eauto.
    - intros E. inversion E; subst. simpl. eapply inputs_settled; eauto. }
  intros St. destruct a as [i x|n| |]; simpl.
  - unfold add_input_value. destruct (nth_error (inputs w) i) as [v|] eqn:N; cbn [of_option bind]; [|discriminate].
    intros E. destruct (input_settled i v x s s' N E) as [A B]. intros j u Nj.
    destruct (Nat.eq_dec j i) as [->|D]; [rewrite N in Nj; inversion Nj; subst; auto|]. apply (B j u Nj D). apply St; auto.
  - destruct (block_evaluation n s) as [r|] eqn:E; cbn [bind]; [|discriminate]. intros F. inversion F; subst. eapply BE; eauto.
  - unfold ExecModel.evaluate_next_block. destruct (activate_inputs false s) as [s1|] eqn:E1; cbn [bind]; [|discriminate].
    destruct (activable_blocks s1) as [ac|]; cbn [bind]; [|discriminate].
    destruct ac as [|b ac]; [cbn [bind snd]; intros F; inversion F; subst; eapply inputs_settled; eauto|].
    destruct (block_evaluation b s1) as [r|] eqn:E; cbn [bind]; [|discriminate]. intros F. inversion F; subst. eapply BE; eauto.
  - unfold ExecModel.continue_run. destruct (activate_inputs false s) as [s1|] eqn:E1; cbn [bind]; [|discriminate].
    apply inputs_settled in E1. revert s1 E1. generalize (S (S (List.length (blocks w)))) as n. clear St s.
    induction n as [|n IH]; intros s1 S1; [discriminate|]. cbn [ExecModel.run_loop].
    destruct runtime_blocks as [rt|]; cbn [bind]; [|discriminate].
    destruct (activable_blocks s1) as [ac|]; cbn [bind]; [|discriminate].
    destruct (filter (fun b => memb Nat.eqb b ac) rt) as [|b bs]; [intros F; inversion F; subst; auto|].
    destruct (foldM _ (b :: bs) s1) as [s2|] eqn:E2; cbn [bind]; [|discriminate]. apply IH.
    clear - E2 BE S1. revert s1 S1 E2. induction (b :: bs) as [|c l IHl]; intros s1 S1 E2; cbn [foldM] in E2; [inversion E2; subst; auto|].
    destruct (block_evaluation c s1) as [r|] eqn:E; cbn [bind] in E2; [|discriminate]. apply (IHl (snd r)); auto. eapply BE; eauto.
Qed.

Lemma acts_settled acts : forall (s s' : state), settled s -> foldM act acts s = Ok s' -> settled s'.
Proof.
  induction acts as [|a acts IH]; intros s s' S E; cbn [foldM] in E; [inversion E; subst; auto|].
  destruct (act s a) as [s1|] eqn:E1; cbn [bind] in E; [|discriminate]. apply (IH s1); auto. eapply act_settled; eauto.
Qed.

Lemma interactive_settled iv acts (s : state) : interactive w default lock_flag type_ok evaluate set_order iv acts = Ok s -> settled s.
Proof.
  unfold interactive, start_run. destruct (activate_inputs false _) as [s0|] eqn:E0; cbn [bind]; [|discriminate].
  apply acts_settled. eapply inputs_settled; eauto.
Qed.

(** ** Invariants of actions *)
Section Keep.
Variable P : state -> Prop.
Hypothesis P_variable : forall v x (s s' : state), P s -> In v (variables w) ->
  (forall i, nth_error (inputs w) i = Some v -> s_iv s i = Some x) -> activate_variable (fuel w) v x s = Ok s' -> P s'.
Hypothesis P_input : forall i v x (s s' : state), P s -> nth_error (inputs w) i = Some v -> activate_input v x s = Ok s' -> P s'.
Hypothesis P_blk : forall n s, P s -> n < List.length (blocks w) -> P (set_blk n s).
Hypothesis P_log : forall n s, P s -> n < List.length (blocks w) -> P (log_block n s).

Lemma keep_inputs c (s s' : state) : P s -> activate_inputs c s = Ok s' -> P s'.
Proof.
  unfold ExecModel.activate_inputs.
  assert (Q : forall l, (forall i v, In (i, v) l -> nth_error (inputs w) i = Some v) -> forall (s s' : state), P s ->
    foldM (fun (s : state) iv => let (i, v) := iv : nat * nat in
           match s_iv s i with
           | Some x => activate_input v x s
           | None => let* l := locked default lock_flag v in
             match default v with Some d => activate_input v d s | None => if c then Err ValueError else Ok s end
           end) l s = Ok s' -> P s').
  { induction l as [|[i v] l IH]; intros Hl s0 s1 H F; cbn [foldM] in F; [inversion F; subst; auto|].
    match type of F with bind ?m _ = _ => destruct m as [s2|e] eqn:E2; cbn [bind] in F; [|discriminate] end.
    apply (IH (fun j u J => Hl j u (or_intror J)) s2 s1); auto.
    assert (N := Hl i v (or_introl eq_refl)).
    destruct (s_iv s0 i) as [x|]; [eapply P_input; eauto|].
    destruct (locked default lock_flag v) as [lk|]; cbn [bind] in E2; [|discriminate].
    destruct (default v) as [d|]; [eapply P_input; eauto|]. destruct c; [discriminate|]. inversion E2; subst; auto. }
  apply (Q _ (fun i v I => proj1 (enumerate_In _ i v) I)).
Qed.

Lemma keep_read n b : nth_error (blocks w) n = Some b -> forall ins (s s' : state) xs, (forall v, In v ins -> In v (b_in b)) ->
  P s -> read_inputs w ins s = Ok (s', xs) -> P s'.
Proof.
  intros Nb. induction ins as [|v ins IH]; intros s0 s1 xs Hi S E; [simpl in E; inversion E; subst; auto|]. cbn [read_inputs] in E.
  destruct (read_input w v s0) as [x|] eqn:Ex; cbn [bind] in E; [|discriminate].
  destruct (activate_variable (fuel w) v x s0) as [s2|] eqn:E2; cbn [bind] in E; [|discriminate].
  destruct (read_inputs w ins s2) as [[s3 zs]|] eqn:E3; cbn [bind fst snd] in E; [|discriminate]. inversion E; subst.
  eapply (IH s2 s1 zs); auto; [intros; apply Hi; simpl; auto|].
  eapply (P_variable v x s0); eauto.
  - apply in_variables; [exact WF|]. left. apply in_block_variables. exists b. split; [eapply nth_error_In; eauto|].
    left. apply Hi. simpl. auto.
  - intros i N. unfold read_input in Ex.
    assert (I := nth_error_In _ _ N). pose proof (input_not_target w WF v I) as NT.
    rewrite (proj2 (input_pipe_none w WF v) NT) in Ex.
    rewrite (proj2 (input_index_some w WF v i I) N) in Ex. cbn [of_option bind] in Ex.
    destruct (s_iv s0 i); cbn [of_option] in Ex; congruence.
Qed.

Lemma keep_block n (s s' : state) : P s -> evaluate_block n s = Ok s' -> P s'.
Proof.
  intros S. unfold ExecModel.evaluate_block. destruct (nth_error (blocks w) n) as [b|] eqn:Nb; [|discriminate].
  assert (L : n < List.length (blocks w)) by (apply nth_error_Some; congruence).
  destruct (read_inputs w (b_in b) s) as [[s1 xs]|] eqn:E1; cbn [bind fst snd]; [|discriminate].
  destruct (evaluate n xs) as [zs|]; cbn [bind]; [|discriminate].
  pose proof (keep_read n b Nb (b_in b) s s1 xs (fun v J => J) S E1) as S1. unfold activate_block.
  destruct (foldM _ (combine (b_out b) zs) (log_block n s1)) as [s2|] eqn:E2; cbn [bind]; [|discriminate].
  intros E. inversion E; subst. apply P_blk; auto.
  assert (Q : forall l, (forall a, In a l -> In (fst a) (b_out b)) -> forall (s s' : state), P s ->
     foldM (fun s (ox : nat * V) => activate_variable (fuel w) (fst ox) (snd ox) s) l s = Ok s' -> P s').
  { clear - WF Nb P_variable. induction l as [|a l IH]; intros Hl s0 s4 S0 F; cbn [foldM] in F; [inversion F; subst; auto|].
    destruct (activate_variable (fuel w) (fst a) (snd a) s0) as [s3|] eqn:E3; cbn [bind] in F; [|discriminate].
    apply (IH (fun c J => Hl c (or_intror J)) s3 s4); auto. eapply P_variable; eauto.
    - apply in_variables; [exact WF|]. left. apply in_block_variables. exists b. split; [eapply nth_error_In; eauto|].
      right. apply Hl. simpl. auto.
    - intros i N. exfalso. eapply (input_not_out w WF (fst a) n b); eauto; [eapply nth_error_In; eauto|apply Hl; simpl; auto]. }
  apply (Q _ (fun a J => in_combine_l _ _ (fst a) (snd a) (eq_rect _ (fun z => In z _) J _ (surjective_pairing a))) _ s2) in E2;
    [exact E2|]. apply P_log; auto.
Qed.

Lemma keep_block_evaluation n (s : state) r : P s -> block_evaluation n s = Ok r -> P (snd r).
Proof.
  intros S. unfold ExecModel.block_evaluation. destruct (n <? List.length (blocks w)); [|discriminate].
  destruct (activate_inputs false s) as [s1|] eqn:E1; cbn [bind]; [|discriminate].
  destruct (activable_blocks s1) as [ac|]; cbn [bind]; [|discriminate].
  pose proof (keep_inputs false s s1 S E1) as S1. destruct (memb Nat.eqb n ac).
  - destruct (evaluate_block n s1) as [s2|] eqn:E2; cbn [bind]; [|discriminate]. intros E. inversion E; subst. simpl.
    eapply keep_block; eauto.
  - intros E. inversion E; subst. exact S1.
Qed.

Lemma keep_act a (s s' : state) : P s -> act s a = Ok s' -> P s'.
Proof.
  intros St. destruct a as [i x|n| |]; simpl.
  - unfold add_input_value. destruct (nth_error (inputs w) i) as [v|] eqn:N; cbn [of_option bind]; [|discriminate].
    eapply P_input; eauto.
  - destruct (block_evaluation n s) as [r|] eqn:E; cbn [bind]; [|discriminate]. intros F. inversion F; subst.
    eapply keep_block_evaluation; eauto.
  - unfold ExecModel.evaluate_next_block. destruct (activate_inputs false s) as [s1|] eqn:E1; cbn [bind]; [|discriminate].
    pose proof (keep_inputs false s s1 St E1) as S1.
    destruct (activable_blocks s1) as [ac|]; cbn [bind]; [|discriminate].
    destruct ac as [|b ac]; [cbn [bind snd]; intros F; inversion F; subst; auto|].
    destruct (block_evaluation b s1) as [r|] eqn:E; cbn [bind]; [|discriminate]. intros F. inversion F; subst.
    eapply keep_block_evaluation; eauto.
  - unfold ExecModel.continue_run. destruct (activate_inputs false s) as [s1|] eqn:E1; cbn [bind]; [|discriminate].
    pose proof (keep_inputs false s s1 St E1) as S1. clear E1 St s. revert s1 S1.
    generalize (S (S (List.length (blocks w)))) as n.
    induction n as [|n IH]; intros s1 S1; [discriminate|]. cbn [ExecModel.run_loop].
    destruct runtime_blocks as [rt|]; cbn [bind]; [|discriminate].
    destruct (activable_blocks s1) as [ac|]; cbn [bind]; [|discriminate].
    destruct (filter (fun b => memb Nat.eqb b ac) rt) as [|b bs]; [intros F; inversion F; subst; auto|].
    destruct (foldM _ (b :: bs) s1) as [s2|] eqn:E2; cbn [bind]; [|discriminate]. apply IH.
    clear IH. revert s1 S1 E2. induction (b :: bs) as [|c l IHl]; intros s1 S1 E2; cbn [foldM] in E2; [inversion E2; subst; auto|].
    destruct (block_evaluation c s1) as [r|] eqn:E; cbn [bind] in E2; [|discriminate]. apply (IHl (snd r)); auto.
    eapply keep_block_evaluation; eauto.
Qed.

Lemma keep_interactive iv acts (s : state) :
  P (mkState iv (fun _ => false) (fun _ => false) (fun _ => None) None []) ->
  interactive w default lock_flag type_ok evaluate set_order iv acts = Ok s -> P s.
Proof.
  intros P0. unfold interactive, start_run. destruct (activate_inputs false _) as [s0|] eqn:E0; cbn [bind]; [|discriminate].
  apply keep_inputs in E0; auto. clear P0. revert s0 E0. induction acts as [|a acts IH]; intros s0 S0 E; cbn [foldM] in E; [inversion E; subst; auto|].
  destruct (act s0 a) as [s1|] eqn:E1; cbn [bind] in E; [|discriminate]. apply (IH s1); auto. eapply keep_act; eauto.
Qed.
End Keep.

(** Only what the workflow has is flagged or valued. *)
Record tidy (s : state) : Prop := {
  t_var : forall v, s_var s v = true -> In v (variables w);
  t_blk : forall b, s_blk s b = true -> b < List.length (blocks w);
  t_iv : forall i, s_iv s i <> None -> i < List.length (inputs w);
  t_log : forall b, In b (evaluated s) -> b < List.length (blocks w) }.

Lemma tidy_variable v x (s s' : state) : tidy s -> In v (variables w) -> activate_variable (fuel w) v x s = Ok s' -> tidy s'.
Proof.
  intros [] I E. destruct (activate_char w WF v x s) as [s2 [E2 [A [B [C [D [F G]]]]]]].
  rewrite E in E2. inversion E2; subst s2. constructor.
  - intros u U. apply F in U. destruct U as [U|[->|U]]; auto. apply (pipe_end_in w WF) in U. tauto.
  - intros b. rewrite B. auto.
  - intros i. rewrite A. auto.
  - intros b. rewrite C. auto.
Qed.

Lemma tidy_input i v x (s s' : state) : tidy s -> nth_error (inputs w) i = Some v -> activate_input v x s = Ok s' -> tidy s'.
Proof.
  intros [] N E. pose proof (input_char i v x s N) as IC. destruct (type_ok v x); [|congruence].
  destruct IC as [s2 [E2 [A [B [C [D [F G]]]]]]]. rewrite E in E2. inversion E2; subst s2.
  assert (Iv : In v (variables w)). { apply nth_error_In in N. unfold inputs in N. apply filter_In in N. tauto. }
  constructor.
  - intros u U. apply F in U. destruct U as [U|[->|U]]; auto. apply (pipe_end_in w WF) in U. tauto.
  - intros b. rewrite B. auto.
  - intros j. rewrite A. unfold upd. destruct (Nat.eqb_spec j i); auto. subst. intros _. apply nth_error_Some. congruence.
  - intros b. rewrite C. auto.
Qed.

Lemma tidy_blk n (s : state) : tidy s -> n < List.length (blocks w) -> tidy (set_blk n s).
Proof. intros [] L. constructor; auto. intros b. simpl. unfold upd. destruct (Nat.eqb_spec b n); subst; auto. Qed.

Lemma tidy_log n (s : state) : tidy s -> n < List.length (blocks w) -> tidy (log_block n s).
Proof. intros [] L. constructor; auto. intros b. simpl. intros J. apply in_app_or in J. destruct J as [J|[<-|[]]]; auto. Qed.

Lemma inputs_tidy c (s s' : state) : tidy s -> activate_inputs c s = Ok s' -> tidy s'.
Proof. apply keep_inputs. intros. eapply tidy_input; eauto. Qed.

Lemma block_tidy n (s s' : state) : tidy s -> evaluate_block n s = Ok s' -> tidy s'.
Proof. apply keep_block; eauto using tidy_variable, tidy_blk, tidy_log. Qed.

Lemma act_tidy a (s s' : state) : tidy s -> act s a = Ok s' -> tidy s'.
Proof. apply keep_act; eauto using tidy_variable, tidy_input, tidy_blk, tidy_log. Qed.

End B.

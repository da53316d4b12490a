(** Execution refines the data-flow meaning. *)
From Coq Require Import List Bool Arith Lia Permutation.
From Verif Require Import Base BaseProofs ExecModel ExecSpec ExecStruct ExecRuntime.
Import ListNotations.

Lemma upd_same {A} (f : nat -> A) k x : upd f k x k = x.
Proof. unfold upd. rewrite Nat.eqb_refl. reflexivity. Qed.
Lemma upd_other {A} (f : nat -> A) k x j : j <> k -> upd f k x j = f j.
Proof. unfold upd. intros H. apply Nat.eqb_neq in H. rewrite H. reflexivity. Qed.
Lemma upd_true f k j : upd f k true j = true <-> j = k \/ f j = true.
Proof.
  unfold upd. destruct (Nat.eqb_spec j k); subst; split; auto.
  intros [H|H]; congruence.
Qed.

Section E.
Context {V : Type}.
Variable w : workflow.
Hypothesis WF : well_formed w.
Variable default : nat -> option V.
Variable lock_flag : nat -> bool.
Hypothesis LS : locks_sound default lock_flag.
Variable type_ok : nat -> V -> bool.
Variable evaluate : nat -> list V -> res (list V).
Variable set_order : nat -> list nat -> list nat.
Hypothesis SO : forall b l, Permutation (set_order b l) l.
(** values of the inputs *)
Variable G : nat -> option V.

Notation state := (state V).
Notation hv := (has_value w G evaluate).
Notation hvs := (have_values w G evaluate).
Notation activate_variable := (activate_variable w).
Notation activate_input := (activate_input w type_ok).
Notation activate_inputs := (activate_inputs w default lock_flag type_ok).
Notation runtime_blocks := (runtime_blocks w default lock_flag set_order).
Notation activable_blocks := (activable_blocks w default lock_flag set_order).
Notation evaluate_block := (evaluate_block w evaluate).
Notation block_evaluation := (block_evaluation w default lock_flag type_ok evaluate set_order).
Notation fuel := (fuel w).

(** ** The meaning is unique *)
Scheme hv_mut := Induction for has_value Sort Prop
with hvs_mut := Induction for have_values Sort Prop.

Lemma io_absurd b n b' v :
  In b (blocks w) -> In v (b_in b) -> nth_error (blocks w) n = Some b' -> In v (b_out b') -> False.
Proof. intros I J N K. exact (in_out_disjoint w WF b b' v I (nth_error_In _ _ N) J K). Qed.

Lemma hv_functional : forall v x, hv v x -> forall y, hv v y -> x = y.
Proof.
  apply (hv_mut V w G evaluate (fun v x _ => forall y, hv v y -> x = y)
                (fun vs xs _ => forall ys, hvs vs ys -> xs = ys)).
  - intros v x I E y H. apply (inputs_In w WF) in I. assert (NT := input_not_target w WF v I).
    apply (inputs_In w WF) in I. inversion H as [v' x' I' E'|s t x' P H'|n b xs ys j v' y' N HV EV J Y]; subst.
    + congruence.
    + exfalso. apply NT. apply in_map_iff. exists (s, v); auto.
    + exfalso. apply nth_error_In in J. destruct I as [[b' [Ib [Jv _]]]|[_ NB]].
      * eapply io_absurd; eauto.
      * apply NB. apply in_block_variables. exists b. split; auto. eapply nth_error_In; eauto.
  - intros s t x P Hs IH y H. destruct (wf_target w WF _ _ P) as [bt [Ibt Jt]].
    inversion H as [v' x' I' E'|s' t' x' P' H'|n b xs ys j v' y' N HV EV J Y]; subst.
    + exfalso. apply (inputs_In w WF) in I'. apply (input_not_target w WF) in I'. apply I'.
      apply in_map_iff. exists (s, t); auto.
    + apply IH. apply (upstream_variable_some w WF) in P, P'. assert (s' = s) by congruence. subst; auto.
    + exfalso. apply nth_error_In in J. eapply io_absurd; eauto.
  - intros n b xs ys j v y N Hxs IH EV J Y z H.
    inversion H as [v' x' I' E'|s' t' x' P' H'|n' b' xs' ys' j' v' y' N' HV' EV' J' Y']; subst.
    + exfalso. apply nth_error_In in J. destruct I' as [[b' [Ib [Jv _]]]|[_ NB]].
      * eapply io_absurd; eauto.
      * apply NB. apply in_block_variables. exists b. split; auto. eapply nth_error_In; eauto.
    + exfalso. destruct (wf_target w WF _ _ P') as [bt [Ibt Jt]]. apply nth_error_In in J.
      eapply io_absurd; eauto.
    + assert (A : variable_indices w v = Ok (APort n true j)) by (eapply indices_port; eauto).
      assert (B : variable_indices w v = Ok (APort n' true j')) by (eapply indices_port; eauto).
      rewrite A in B; inversion B; subst n' j'. rewrite N in N'; inversion N'; subst b'.
      rewrite (IH xs' HV') in EV. rewrite EV in EV'. inversion EV'; subst. congruence.
  - intros ys H. inversion H; auto.
  - intros v x vs xs Hx IHx Hxs IHxs ys H. inversion H; subst. f_equal; auto.
Qed.

Lemma hvs_functional vs xs : hvs vs xs -> forall ys, hvs vs ys -> xs = ys.
Proof.
  induction 1; intros ys H'; inversion H'; subst; auto. f_equal; auto. eapply hv_functional; eauto.
Qed.

(** ** Activation *)
Lemma input_port_no_out t b : In b (blocks w) -> In t (b_in b) -> variable_output_pipes w t = [].
Proof.
  intros I J. destruct (variable_output_pipes w t) as [|[p [s t']] l] eqn:E; auto. exfalso.
  assert (Q : In (p, (s, t')) (variable_output_pipes w t)) by (rewrite E; simpl; auto).
  apply output_pipes_In in Q. destruct Q as [N ->]. apply nth_error_In in N. eapply wf_source; eauto.
Qed.

Lemma input_port_not_output t b : In b (blocks w) -> In t (b_in b) -> is_output w t = false.
Proof.
  intros I J. unfold is_output. destruct (output w) as [o|] eqn:O; auto.
  apply Nat.eqb_neq. intros ->. destruct (wf_output w WF _ O) as [bo [Io Jo]].
  eapply in_out_disjoint; [eauto|exact I|exact Io|eauto|eauto].
Qed.

Lemma activate_input_port f t b (x : V) s :
  In b (blocks w) -> In t (b_in b) -> activate_variable (S f) t x s = Ok (set_var t s).
Proof.
  intros I J. simpl. rewrite (input_port_no_out t b I J), (input_port_not_output t b I J). reflexivity.
Qed.

Definition push (x : V) (s : state) (ip : nat * (nat * nat)) : state :=
  set_var (snd (snd ip)) (set_pipe (fst ip) x s).

Lemma push_fold x l : forall s,
  let s' := fold_left (push x) l s in
  s_iv s' = s_iv s /\ s_blk s' = s_blk s /\ evaluated s' = evaluated s /\ s_out s' = s_out s
  /\ (forall u, s_var s' u = true <-> s_var s u = true \/ exists p q, In (p, (q, u)) l)
  /\ (forall p, (In p (map fst l) /\ s_pipe s' p = Some x) \/ (~ In p (map fst l) /\ s_pipe s' p = s_pipe s p)).
Proof.
  induction l as [|[p0 [q0 t0]] l IH]; intros s; simpl.
  - repeat split; auto. intros [H|[p [q []]]]; auto.
  - destruct (IH (push x s (p0, (q0, t0)))) as [A [B [C [D [E F]]]]]. simpl in *.
    repeat (split; [assumption|]). split.
    + intros u. rewrite E. simpl. rewrite upd_true. split.
      * intros [[->|H]|[p [q H]]]; eauto.
      * intros [H|[p [q [H|H]]]]; eauto. inversion H; subst; auto.
    + intros p. destruct (F p) as [[I H]|[I H]]; auto.
      destruct (Nat.eq_dec p0 p) as [<-|Dp].
      * left. split; auto. rewrite H. apply upd_same.
      * right. split; [intros [|]; auto|]. rewrite H. apply upd_other; auto.
Qed.

Lemma foldM_push f x l : forall s,
  (forall ip, In ip l -> exists b, In b (blocks w) /\ In (snd (snd ip)) (b_in b)) ->
  foldM (fun s ip => activate_variable (S f) (snd (snd ip)) x (set_pipe (fst ip) x s)) l s
  = Ok (fold_left (push x) l s).
Proof.
  induction l as [|ip l IH]; intros s H; simpl; auto.
  destruct (H ip) as [b [I J]]; [simpl; auto|].
  rewrite (input_port_no_out _ b I J), (input_port_not_output _ b I J). simpl.
  rewrite <- IH by (intros; apply H; simpl; auto). reflexivity.
Qed.

Lemma out_pipes_targets v ip :
  In ip (variable_output_pipes w v) -> exists b, In b (blocks w) /\ In (snd (snd ip)) (b_in b).
Proof.
  destruct ip as [p [s t]]. intros H. apply output_pipes_In in H. destruct H as [N _].
  apply nth_error_In in N. simpl. eapply wf_target; eauto.
Qed.

Lemma activate_char v (x : V) (s : state) :
  exists s', activate_variable fuel v x s = Ok s' /\
    s_iv s' = s_iv s /\ s_blk s' = s_blk s /\ evaluated s' = evaluated s
    /\ s_out s' = (if is_output w v then Some x else s_out s)
    /\ (forall u, s_var s' u = true <-> s_var s u = true \/ u = v \/ In (v, u) (pipes w))
    /\ (forall p q t, nth_error (pipes w) p = Some (q, t) ->
          s_pipe s' p = if Nat.eqb q v then Some x else s_pipe s p).
Proof.
  unfold ExecModel.fuel. simpl.
  set (s1 := if is_output w v then set_out x s else s).
  assert (S1 : s_iv s1 = s_iv s /\ s_blk s1 = s_blk s /\ evaluated s1 = evaluated s
     /\ s_out s1 = (if is_output w v then Some x else s_out s) /\ s_var s1 = s_var s /\ s_pipe s1 = s_pipe s).
  { unfold s1. destruct (is_output w v); simpl; auto 10. }
  destruct S1 as [A1 [B1 [C1 [D1 [E1 F1]]]]].
  assert (FM : foldM (fun s ip => activate_variable (length (pipes w)) (snd (snd ip)) x (set_pipe (fst ip) x s))
           (variable_output_pipes w v) s1 = Ok (fold_left (push x) (variable_output_pipes w v) s1)).
  { destruct (pipes w) as [|p0 ps] eqn:P.
    - unfold variable_output_pipes. rewrite P. simpl. reflexivity.
    - simpl length. apply foldM_push. apply out_pipes_targets. }
  rewrite FM. simpl. eexists. split; [reflexivity|]. simpl.
  destruct (push_fold x (variable_output_pipes w v) s1) as [A [B [C [D [E F]]]]]. simpl in *.
  rewrite A, B, C, D. repeat (split; [assumption|]). split.
  - intros u. rewrite upd_true, E, E1. split.
    + intros [->|[H|[p [q H]]]]; auto. apply output_pipes_In in H. destruct H as [N ->].
      right. right. eapply nth_error_In; eauto.
    + intros [H|[->|H]]; auto. right. right. apply In_nth_error in H. destruct H as [p N].
      exists p, v. apply output_pipes_In; auto.
  - intros p q t N. destruct (F p) as [[I H]|[I H]]; rewrite H.
    + apply in_map_iff in I. destruct I as [[p' [q' t']] [<- I]]. apply output_pipes_In in I.
      destruct I as [N' ->]. simpl in N. rewrite N in N'; inversion N'; subst. rewrite Nat.eqb_refl. reflexivity.
    + destruct (Nat.eqb_spec q v); [|rewrite F1; reflexivity]. subst. exfalso. apply I.
      apply in_map_iff. exists (p, (v, t)). split; auto. apply output_pipes_In; auto.
Qed.

(** ** Invariant *)
Record good (s : state) : Prop := {
  g_iv : forall i v x, nth_error (inputs w) i = Some v -> s_iv s i = Some x -> G v = Some x;
  g_pipe : forall p q t x, nth_error (pipes w) p = Some (q, t) -> s_pipe s p = Some x -> hv q x;
  g_out : forall x, s_out s = Some x -> exists o, output w = Some o /\ hv o x;
  g_in_pipe : forall p q t, nth_error (pipes w) p = Some (q, t) -> s_var s t = true -> s_pipe s p <> None;
  g_in_free : forall i v, nth_error (inputs w) i = Some v -> s_var s v = true -> s_iv s i <> None;
  g_prop : forall p q t, nth_error (pipes w) p = Some (q, t) -> s_var s q = true ->
             s_var s t = true;
  g_outset : forall o, output w = Some o -> s_var s o = true -> s_out s <> None;
  g_blk : forall n, s_blk s n = true -> exists b xs ys,
            nth_error (blocks w) n = Some b /\ hvs (b_in b) xs /\ evaluate n xs = Ok ys
            /\ forall j v y, nth_error (b_out b) j = Some v -> nth_error ys j = Some y -> s_var s v = true;
  g_log : forall n, s_blk s n = true -> In n (evaluated s);
  g_src : forall p q t n b, nth_error (pipes w) p = Some (q, t) -> s_pipe s p <> None ->
            nth_error (blocks w) n = Some b -> In q (b_out b) -> In n (evaluated s);
  g_order : forall l1 n l2, evaluated s = l1 ++ n :: l2 -> forall m, feeds w m n -> In m l1;
  g_valid : forall n, In n (evaluated s) -> n < length (blocks w) }.

(** [ext s s']: [s'] has more values, same evaluated blocks. *)
Record ext (s s' : state) : Prop := {
  e_iv : forall i, s_iv s i <> None -> s_iv s' i <> None;
  e_var : forall v, s_var s v = true -> s_var s' v = true;
  e_pipe : forall p qt, nth_error (pipes w) p = Some qt -> s_pipe s p <> None -> s_pipe s' p <> None;
  e_blk : s_blk s' = s_blk s;
  e_log : evaluated s' = evaluated s }.

Lemma ext_refl s : ext s s. Proof. constructor; auto. Qed.
Lemma ext_trans a b c : ext a b -> ext b c -> ext a c.
Proof. intros [] []. constructor; auto; try congruence. eauto. Qed.

Lemma output_iff v : is_output w v = true <-> output w = Some v.
Proof.
  unfold is_output. destruct (output w) as [o|]; [|split; discriminate].
  rewrite Nat.eqb_eq. split; congruence.
Qed.

Lemma source_not_input_port q t u : In (q, t) (pipes w) -> In (u, q) (pipes w) -> False.
Proof.
  intros P P'. destruct (wf_target w WF _ _ P') as [b [I J]]. exact (wf_source w WF _ _ b P I J).
Qed.

Lemma activate_good v x s :
  good s -> hv v x ->
  (forall i, nth_error (inputs w) i = Some v -> s_iv s i <> None) ->
  (forall p q, nth_error (pipes w) p = Some (q, v) -> s_pipe s p <> None) ->
  (forall n b, nth_error (blocks w) n = Some b -> In v (b_out b) -> In n (evaluated s)) ->
  exists s', activate_variable fuel v x s = Ok s' /\ good s' /\ ext s s' /\ s_var s' v = true
             /\ s_iv s' = s_iv s.
Proof.
  intros Gd H Hin Hp Ho. destruct (activate_char v x s) as [s' [E [A [B [C [D [F P]]]]]]].
  exists s'. split; auto.
  assert (PS : forall p q t, nth_error (pipes w) p = Some (q, t) -> s_pipe s p <> None -> s_pipe s' p <> None).
  { intros p q t N. rewrite (P p q t N). destruct (Nat.eqb q v); congruence. }
  split; [constructor|split; [constructor|split]].
  - intros i u y. rewrite A. apply (g_iv s Gd).
  - intros p q t y N. rewrite (P p q t N). destruct (Nat.eqb_spec q v).
    + intros Q; inversion Q; subst; auto.
    + apply (g_pipe s Gd p q t); auto.
  - intros y. rewrite D. destruct (is_output w v) eqn:O.
    + intros Q; inversion Q; subst. exists v. split; auto. apply output_iff; auto.
    + apply (g_out s Gd).
  - intros p q t N T. apply F in T. rewrite (P p q t N). destruct (Nat.eqb_spec q v); [congruence|].
    destruct T as [T|[->|T]].
    + apply (g_in_pipe s Gd p q t); auto.
    + apply (Hp p q); auto.
    + apply nth_error_In in N. apply (upstream_variable_some w WF) in T, N. congruence.
  - intros i u N T. rewrite A. apply F in T. destruct T as [T|[->|T]].
    + apply (g_in_free s Gd i u); auto.
    + apply Hin; auto.
    + exfalso. apply nth_error_In in N. apply (input_not_target w WF) in N. apply N.
      apply in_map_iff. exists (v, u); auto.
  - intros p q t N T. apply F. apply F in T. destruct T as [T|[->|T]].
    + left. apply (g_prop s Gd p q t); auto.
    + right. right. eapply nth_error_In; eauto.
    + exfalso. apply nth_error_In in N. exact (source_not_input_port q t v N T).
  - intros o O T. rewrite D. destruct (is_output w v) eqn:OV; [congruence|]. apply F in T.
    destruct T as [T|[->|T]].
    + apply (g_outset s Gd o); auto.
    + apply output_iff in O. congruence.
    + exfalso. destruct (wf_target w WF _ _ T) as [b [I J]].
      pose proof (input_port_not_output _ _ I J) as X. apply output_iff in O. congruence.
  - intros n. rewrite B. intros Q. destruct (g_blk s Gd n Q) as [b [xs [ys [N [X [Ev Al]]]]]].
    exists b, xs, ys. repeat (split; [assumption|]). intros j u y J Y. apply F. left. eauto.
  - intros n. rewrite B, C. apply (g_log s Gd).
  - intros p q t n b N. rewrite (P p q t N), C. destruct (Nat.eqb_spec q v).
    + subst. intros _ Nb I. eapply Ho; eauto.
    + intros Q. eapply (g_src s Gd); eauto.
  - intros l1 n l2. rewrite C. apply (g_order s Gd).
  - intros n. rewrite C. apply (g_valid s Gd).
  - intros i. rewrite A; auto.
  - intros u T. apply F; auto.
  - intros p [q t] N. apply (PS p q t N).
  - auto.
  - auto.
  - apply F; auto.
  - auto.
Qed.

Lemma set_pipe_good p q t (x : V) (s : state) :
  good s -> nth_error (pipes w) p = Some (q, t) -> hv q x ->
  (forall n b, nth_error (blocks w) n = Some b -> In q (b_out b) -> In n (evaluated s)) ->
  good (set_pipe p x s) /\ ext s (set_pipe p x s) /\ s_pipe (set_pipe p x s) p <> None.
Proof.
  intros Gd N H Ho. split; [|split].
  - constructor; simpl; try (apply Gd).
    + intros p' q' t' y N'. unfold upd. destruct (Nat.eqb_spec p' p).
      * subst. rewrite N in N'; inversion N'; subst. intros Q; inversion Q; subst; auto.
      * eapply (g_pipe s Gd); eauto.
    + intros p' q' t' N' T. unfold upd. destruct (Nat.eqb_spec p' p); [congruence|].
      eapply (g_in_pipe s Gd); eauto.
    + intros p' q' t' n b N'. unfold upd. destruct (Nat.eqb_spec p' p).
      * subst. rewrite N in N'; inversion N'; subst. intros _. apply Ho.
      * eapply (g_src s Gd); eauto.
  - constructor; simpl; auto. intros p' qt _. unfold upd. destruct (Nat.eqb p' p); congruence.
  - simpl. rewrite upd_same. discriminate.
Qed.

Lemma input_not_out v n b :
  In v (inputs w) -> nth_error (blocks w) n = Some b -> In v (b_out b) -> False.
Proof.
  intros I N J. apply (inputs_In w WF) in I. apply nth_error_In in N.
  destruct I as [[b' [Ib [Jb _]]]|[_ NB]].
  - eapply in_out_disjoint with (b := b') (b' := b); eauto.
  - apply NB. apply in_block_variables; eauto.
Qed.

Lemma set_iv_good i v x s :
  good s -> nth_error (inputs w) i = Some v -> G v = Some x ->
  good (set_iv i x s) /\ ext s (set_iv i x s).
Proof.
  intros Gd N H. split.
  - constructor; simpl; try (apply Gd).
    + intros j u y Nj. unfold upd. destruct (Nat.eqb_spec j i).
      * subst. rewrite N in Nj; inversion Nj; subst. intros Q; inversion Q; subst; auto.
      * eapply (g_iv s Gd); eauto.
    + intros j u Nj T. unfold upd. destruct (Nat.eqb_spec j i); [congruence|]. eapply (g_in_free s Gd); eauto.
  - constructor; simpl; auto. intros j. unfold upd. destruct (Nat.eqb j i); congruence.
Qed.

Lemma activate_pipes_good v x l : forall s,
  good s -> hv v x -> In v (inputs w) ->
  (forall ip, In ip l -> In ip (variable_output_pipes w v)) ->
  exists s', foldM (fun s ip => activate_pipe w ip x s) l s = Ok s' /\ good s' /\ ext s s' /\ s_iv s' = s_iv s.
Proof.
  induction l as [|[p [q t]] l IH]; intros s Gd H I Hl.
  - exists s. simpl. auto using ext_refl.
  - assert (Q := Hl _ (or_introl eq_refl)). apply output_pipes_In in Q. destruct Q as [N ->].
    destruct (set_pipe_good p v t x s Gd N H) as [G1 [E1 P1]].
    { intros n b Nb J. exfalso. eapply input_not_out; eauto. }
    destruct (wf_target w WF _ _ (nth_error_In _ _ N)) as [bt [Ibt Jt]].
    destruct (activate_good t x (set_pipe p x s) G1) as [s1 [A1 [G2 [E2 [_ Iv1]]]]].
    + eapply hv_pipe; eauto. eapply nth_error_In; eauto.
    + intros i Ni. exfalso. apply nth_error_In in Ni. apply (input_not_target w WF) in Ni. apply Ni.
      apply in_map_iff. exists (v, t). split; auto. eapply nth_error_In; eauto.
    + intros p' q' N'.
      assert (p' = p).
      { pose proof (wf_single w WF) as ND. rewrite NoDup_nth_error in ND. apply ND.
        - rewrite map_length. apply nth_error_Some. congruence.
        - rewrite !nth_error_map, N, N'. reflexivity. }
      subst. auto.
    + intros n b Nb J. exfalso. eapply io_absurd; eauto.
    + destruct (IH s1 G2 H I) as [s2 [A2 [G3 [E3 Iv2]]]]; [intros; apply Hl; simpl; auto|].
      exists s2. split; [|split; auto; split; [eapply ext_trans; [exact E1|eapply ext_trans; eauto]|]].
      * simpl. unfold activate_pipe at 1. simpl fst. simpl snd. rewrite A1. simpl. exact A2.
      * rewrite Iv2, Iv1. reflexivity.
Qed.

Lemma activate_input_good i v x s :
  good s -> nth_error (inputs w) i = Some v -> G v = Some x -> type_ok v x = true ->
  exists s', activate_input v x s = Ok s' /\ good s' /\ ext s s' /\ s_var s' v = true
             /\ s_iv s' = upd (s_iv s) i (Some x).
Proof.
  intros Gd N H T. unfold ExecModel.activate_input. rewrite T.
  assert (I := nth_error_In _ _ N).
  rewrite (proj2 (input_index_some w WF v i I) N).
  destruct (set_iv_good i v x s Gd N H) as [G1 E1].
  assert (HV : hv v x). { apply hv_input; auto. apply (inputs_In w WF); auto. }
  destruct (activate_good v x (set_iv i x s) G1 HV) as [s1 [A1 [G2 [E2 [V1 Iv1]]]]].
  - intros j Nj. assert (j = i).
    { pose proof (inputs_nodup w WF) as ND. rewrite NoDup_nth_error in ND. apply ND; [|congruence].
      apply nth_error_Some; congruence. }
    subst. simpl. rewrite upd_same. discriminate.
  - intros p q Np. exfalso. apply (input_not_target w WF) in I. apply I. apply in_map_iff.
    exists (q, v). split; auto. eapply nth_error_In; eauto.
  - intros n b Nb J. exfalso. eapply input_not_out; eauto.
  - rewrite A1. simpl.
    destruct (activate_pipes_good v x (variable_output_pipes w v) s1 G2 HV I) as [s2 [A2 [G3 [E3 Iv2]]]]; auto.
    exists s2. split; auto. split; auto. split; [|split].
    + eapply ext_trans; [exact E1|eapply ext_trans; eauto].
    + apply (e_var _ _ E3); auto.
    + rewrite Iv2, Iv1. reflexivity.
Qed.

(** Defaults of the inputs without value agree with the meaning. *)
Definition defaults_agree (s : state) : Prop :=
  forall i v d, nth_error (inputs w) i = Some v -> s_iv s i = None -> default v = Some d -> G v = Some d.

Lemma defaults_agree_mono s s' :
  (forall i, s_iv s i <> None -> s_iv s' i <> None) -> defaults_agree s -> defaults_agree s'.
Proof.
  intros H D i v d N E F. apply (D i v d N); auto.
  destruct (s_iv s i) eqn:Q; auto. exfalso. apply (H i); congruence.
Qed.

Definition bad_type : Prop := exists v x, In v (inputs w) /\ G v = Some x /\ type_ok v x = false.

Lemma activate_inputs_fold check l : forall s,
  good s -> defaults_agree s ->
  (forall i v, In (i, v) l -> nth_error (inputs w) i = Some v) ->
  match foldM (fun s iv =>
           let (i, v) := iv : nat * nat in
           match s_iv s i with
           | Some x => activate_input v x s
           | None =>
             let* l := locked default lock_flag v in
             match default v with
             | Some d => activate_input v d s
             | None => if check : bool then Err ValueError else Ok s
             end
           end) l s with
  | Ok s' => good s' /\ ext s s' /\ defaults_agree s'
     /\ (check = true -> forall i v, In (i, v) l -> s_var s' v = true)
     /\ (forall i v, In (i, v) l -> s_iv s i <> None \/ default v <> None -> s_var s' v = true)
  | Err e => (e = TypeError /\ bad_type)
      \/ (e = ValueError /\ check = true /\ exists i v, In (i, v) l /\ s_iv s i = None /\ default v = None)
  end.
Proof.
  induction l as [|[i v] l IH]; intros s Gd D Hl.
  - simpl. split; auto. split; [apply ext_refl|]. split; auto; split; intros; contradiction.
  - assert (N : nth_error (inputs w) i = Some v) by (apply Hl; simpl; auto).
    assert (STEP : forall x, G v = Some x ->
      match (let* s' := activate_input v x s in
             foldM (fun s iv =>
           let (i, v) := iv : nat * nat in
           match s_iv s i with
           | Some x => activate_input v x s
           | None =>
             let* l := locked default lock_flag v in
             match default v with
             | Some d => activate_input v d s
             | None => if check : bool then Err ValueError else Ok s
             end
           end) l s') with
      | Ok s' => good s' /\ ext s s' /\ defaults_agree s' /\ s_var s' v = true
         /\ (check = true -> forall i v, In (i, v) l -> s_var s' v = true)
         /\ (forall i v, In (i, v) l -> s_iv s i <> None \/ default v <> None -> s_var s' v = true)
      | Err e => (e = TypeError /\ bad_type)
          \/ (e = ValueError /\ check = true /\ exists i v, In (i, v) l /\ s_iv s i = None /\ default v = None)
      end).
    { intros x Hx. destruct (type_ok v x) eqn:T.
      - destruct (activate_input_good i v x s Gd N Hx T) as [s1 [A [G1 [E1 [V1 Iv1]]]]].
        rewrite A. simpl.
        assert (D1 : defaults_agree s1) by (eapply defaults_agree_mono; [apply E1|auto]).
        specialize (IH s1 G1 D1 (fun j u I => Hl j u (or_intror I))).
        destruct (foldM _ l s1) as [s2|e].
        + destruct IH as [G2 [E2 [D2 [C2 C3]]]]. split; auto. split; [eapply ext_trans; eauto|].
          split; auto. split; [apply (e_var _ _ E2); auto|]. split; auto.
          intros j u I [Q|Q]; eapply C3; eauto. left. apply (e_iv _ _ E1); auto.
        + destruct IH as [?|[? [? [j [u [I [Q1 Q2]]]]]]]; auto. right. split; auto. split; auto.
          exists j, u. split; auto. split; auto. destruct (s_iv s j) eqn:Z; auto. exfalso.
          apply (e_iv _ _ E1 j); congruence.
      - unfold ExecModel.activate_input at 1. rewrite T. simpl. left. split; auto.
        exists v, x. split; auto. eapply nth_error_In; eauto. }
    simpl. destruct (s_iv s i) as [x|] eqn:Ei.
    + assert (Hx : G v = Some x) by (eapply (g_iv s Gd); eauto). specialize (STEP x Hx).
      destruct (let* s' := activate_input v x s in _) as [s2|e] eqn:R.
      * destruct STEP as [G2 [E2 [D2 [V2 [C1 C2]]]]]. split; auto. split; auto. split; auto. split.
        -- intros C j u [Q|I]; [inversion Q; subst; auto|eauto].
        -- intros j u [Q|I]; [inversion Q; subst; auto|eauto].
      * destruct STEP as [?|[? [? [j [u [I Q]]]]]]; auto. right. split; auto. split; auto. exists j, u. auto.
    + rewrite (locked_ok default lock_flag LS). simpl.
      destruct (default v) as [d|] eqn:Dv.
      * assert (Hx : G v = Some d) by (eapply D; eauto). specialize (STEP d Hx).
        destruct (let* s' := activate_input v d s in _) as [s2|e] eqn:R.
        -- destruct STEP as [G2 [E2 [D2 [V2 [C1 C2]]]]]. split; auto. split; auto. split; auto. split.
           ++ intros C j u [Q|I]; [inversion Q; subst; auto|eauto].
           ++ intros j u [Q|I]; [inversion Q; subst; auto|eauto].
        -- destruct STEP as [?|[? [? [j [u [I Q]]]]]]; auto. right. split; auto. split; auto. exists j, u. auto.
      * destruct check eqn:Ck.
        -- simpl. right. split; auto. split; auto. exists i, v. auto.
        -- simpl. specialize (IH s Gd D (fun j u I => Hl j u (or_intror I))).
           destruct (foldM _ l s) as [s2|e].
           ++ destruct IH as [G2 [E2 [D2 [C1 C2]]]]. split; auto. split; auto. split; auto. split; [discriminate|].
              intros j u [Q|I] [Q1|Q1]; [inversion Q; subst; congruence|inversion Q; subst; congruence|eauto|eauto].
           ++ destruct IH as [?|[? [? _]]]; auto. discriminate.
Qed.

Lemma activate_inputs_good check s :
  good s -> defaults_agree s ->
  match activate_inputs check s with
  | Ok s' => good s' /\ ext s s' /\ defaults_agree s'
     /\ (check = true -> forall v, In v (inputs w) -> s_var s' v = true)
     /\ (forall i v, nth_error (inputs w) i = Some v -> s_iv s i <> None \/ default v <> None -> s_var s' v = true)
  | Err e => (e = TypeError /\ bad_type)
      \/ (e = ValueError /\ check = true
          /\ exists i v, nth_error (inputs w) i = Some v /\ s_iv s i = None /\ default v = None)
  end.
Proof.
  intros Gd D. unfold ExecModel.activate_inputs.
  pose proof (activate_inputs_fold check (enumerate (inputs w)) s Gd D
                (fun i v I => proj1 (enumerate_In _ i v) I)) as H.
  destruct (foldM _ (enumerate (inputs w)) s) as [s'|e].
  - destruct H as [G1 [E1 [D1 [C1 C2]]]]. split; auto. split; auto. split; auto. split.
    + intros C v I. apply In_nth_error in I. destruct I as [i I]. eapply C1; eauto. apply enumerate_In; eauto.
    + intros i v N. apply (C2 i v). apply enumerate_In; auto.
  - destruct H as [?|[? [? [i [v [I Q]]]]]]; auto. right. split; auto. split; auto.
    exists i, v. split; auto. apply enumerate_In; auto.
Qed.

(** ** Evaluating a block *)
Lemma read_inputs_good n b : nth_error (blocks w) n = Some b ->
  forall ins s, good s -> (forall v, In v ins -> In v (b_in b)) ->
  (forall v, In v ins -> s_var s v = true) ->
  exists s' xs, read_inputs w ins s = Ok (s', xs) /\ good s' /\ ext s s' /\ hvs ins xs /\ s_iv s' = s_iv s.
Proof.
  intros Nb. assert (Ib := nth_error_In _ _ Nb).
  induction ins as [|v ins IH]; intros s Gd Hin Hv.
  - exists s, []. simpl. split; auto. split; auto. split; [apply ext_refl|]. split; [constructor|auto].
  - assert (Iv : In v (b_in b)) by (apply Hin; simpl; auto).
    assert (Tv : s_var s v = true) by (apply Hv; simpl; auto).
    assert (R : exists x, read_input w v s = Ok x /\ hv v x).
    { unfold read_input. destruct (variable_input_pipe w v) as [[p [q t]]|] eqn:P.
      - apply (input_pipe_some w WF) in P. destruct P as [N ->]. simpl.
        destruct (s_pipe s p) as [x|] eqn:X; [|exfalso; eapply (g_in_pipe s Gd); eauto].
        exists x. split; auto. eapply hv_pipe; [eapply nth_error_In; eauto|]. eapply (g_pipe s Gd); eauto.
      - apply (input_pipe_none w WF) in P.
        assert (II : is_input w v) by (left; exists b; auto).
        assert (In' := proj2 (inputs_In w WF v) II).
        destruct (input_index_exists w WF v In') as [i [Ei Ni]]. rewrite Ei. simpl.
        destruct (s_iv s i) as [x|] eqn:X; [|exfalso; eapply (g_in_free s Gd); eauto].
        exists x. split; auto. apply hv_input; auto. eapply (g_iv s Gd); eauto. }
    destruct R as [x [R HV]].
    destruct (activate_good v x s Gd HV) as [s1 [A1 [G1 [E1 [_ Iv1]]]]].
    + intros i Ni. eapply (g_in_free s Gd); eauto.
    + intros p q Np. eapply (g_in_pipe s Gd); eauto.
    + intros m bm Nm J. exfalso. eapply io_absurd; eauto.
    + destruct (IH s1 G1) as [s2 [xs [A2 [G2 [E2 [HVs Iv2]]]]]].
      * intros; apply Hin; simpl; auto.
      * intros u I. apply (e_var _ _ E1). apply Hv; simpl; auto.
      * exists s2, (x :: xs). split; [cbn [read_inputs]; rewrite R; cbn [bind]; rewrite A1; cbn [bind]; rewrite A2; reflexivity|].
        split; auto. split; [eapply ext_trans; eauto|]. split; [constructor; auto|]. congruence.
Qed.

Lemma log_good n b s :
  good s -> nth_error (blocks w) n = Some b -> (forall v, In v (b_in b) -> s_var s v = true) ->
  good (log_block n s).
Proof.
  intros Gd N Hv. constructor; simpl; try (apply Gd).
  - intros m Q. apply in_or_app. left. apply (g_log s Gd); auto.
  - intros p q t m bm Np Q Nm J. apply in_or_app. left. eapply (g_src s Gd); eauto.
  - intros l1 m l2 E k F.
    destruct l2 as [|y l2] using rev_ind.
    + apply app_inj_tail in E. destruct E as [<- <-].
      destruct F as [bk [bn [q [t [Nk [Nn [Jq [Jt P]]]]]]]].
      rewrite N in Nn; inversion Nn; subst bn.
      apply In_nth_error in P. destruct P as [p Np].
      eapply (g_src s Gd); eauto. eapply (g_in_pipe s Gd); eauto.
    + rewrite app_comm_cons, app_assoc in E. apply app_inj_tail in E. destruct E as [E _].
      eapply (g_order s Gd); eauto.
  - intros m I. apply in_app_or in I. destruct I as [I|[<-|[]]]; [apply (g_valid s Gd); auto|].
    apply nth_error_Some; congruence.
Qed.

Lemma outputs_good n b : nth_error (blocks w) n = Some b ->
  forall l s, good s -> In n (evaluated s) ->
  (forall v y, In (v, y) l -> In v (b_out b) /\ hv v y) ->
  exists s', foldM (fun s ox => activate_variable fuel (fst ox) (snd ox) s) l s = Ok s'
    /\ good s' /\ ext s s' /\ (forall v y, In (v, y) l -> s_var s' v = true) /\ s_iv s' = s_iv s.
Proof.
  intros Nb. induction l as [|[v y] l IH]; intros s Gd In' Hl.
  - exists s. simpl. split; auto. split; auto. split; [apply ext_refl|]. split; [tauto|auto].
  - destruct (Hl v y) as [J HV]; [simpl; auto|].
    destruct (activate_good v y s Gd HV) as [s1 [A1 [G1 [E1 [V1 Iv1]]]]].
    + intros i Ni. exfalso. eapply input_not_out; eauto. eapply nth_error_In; eauto.
    + intros p q Np. exfalso. destruct (wf_target w WF _ _ (nth_error_In _ _ Np)) as [bt [Ibt Jt]].
      eapply io_absurd; eauto.
    + intros m bm Nm Jm. assert (m = n).
      { eapply ports_nth with (v := v); eauto; apply in_or_app; auto. }
      subst; auto.
    + destruct (IH s1 G1) as [s2 [A2 [G2 [E2 [V2 Iv2]]]]].
      * rewrite (e_log _ _ E1); auto.
      * intros; apply Hl; simpl; auto.
      * exists s2. split; [cbn [foldM fst snd]; rewrite A1; exact A2|]. split; auto.
        split; [eapply ext_trans; eauto|]. split; [|congruence].
        intros u z [Q|I]; [inversion Q; subst; apply (e_var _ _ E2); auto|eauto].
Qed.

Lemma combine_nth_In {A B} (l : list A) (r : list B) j a b :
  nth_error l j = Some a -> nth_error r j = Some b -> In (a, b) (combine l r).
Proof.
  revert r j; induction l as [|x l IH]; intros [|y r] [|j] H1 H2; simpl in *; try discriminate.
  - inversion H1; inversion H2; auto.
  - right; eauto.
Qed.

Lemma combine_In_nth {A B} (l : list A) (r : list B) a b :
  In (a, b) (combine l r) -> exists j, nth_error l j = Some a /\ nth_error r j = Some b.
Proof.
  revert r; induction l as [|x l IH]; intros [|y r] H; simpl in *; try tauto.
  destruct H as [H|H]; [inversion H; exists 0; auto|].
  destruct (IH _ H) as [j Hj]. exists (S j); auto.
Qed.

(** [grows s s']: what a whole operation does to the state. *)
Record grows (s s' : state) : Prop := {
  gr_iv : forall i, s_iv s i <> None -> s_iv s' i <> None;
  gr_var : forall v, s_var s v = true -> s_var s' v = true;
  gr_pipe : forall p qt, nth_error (pipes w) p = Some qt -> s_pipe s p <> None -> s_pipe s' p <> None;
  gr_blk : forall n, s_blk s n = true -> s_blk s' n = true }.

Lemma grows_refl s : grows s s. Proof. constructor; auto. Qed.
Lemma grows_trans a b c : grows a b -> grows b c -> grows a c.
Proof. intros [] []. constructor; auto. eauto. Qed.
Lemma ext_grows s s' : ext s s' -> grows s s'.
Proof. intros []. constructor; auto. rewrite e_blk0; auto. Qed.

Lemma evaluate_block_good n b s :
  good s -> nth_error (blocks w) n = Some b -> (forall v, In v (b_in b) -> s_var s v = true) ->
  match evaluate_block n s with
  | Ok s' => good s' /\ grows s s' /\ evaluated s' = evaluated s ++ [n] /\ s_blk s' = upd (s_blk s) n true
             /\ s_iv s' = s_iv s
  | Err e => exists xs, hvs (b_in b) xs /\ evaluate n xs = Err e
  end.
Proof.
  intros Gd N Hv. unfold ExecModel.evaluate_block. rewrite N.
  destruct (read_inputs_good n b N (b_in b) s Gd (fun v I => I) Hv) as [s1 [xs [A1 [G1 [E1 [HX Iv1]]]]]].
  rewrite A1. simpl. destruct (evaluate n xs) as [ys|e] eqn:Ev; simpl; [|eauto].
  assert (G2 : good (log_block n s1)).
  { eapply log_good; eauto. intros v I. apply (e_var _ _ E1); auto. }
  unfold activate_block.
  destruct (outputs_good n b N (combine (b_out b) ys) (log_block n s1) G2) as [s3 [A3 [G3 [E3 [V3 Iv3]]]]].
  - simpl. apply in_or_app; simpl; auto.
  - intros v y I. apply combine_In_nth in I. destruct I as [j [J Y]]. split; [eapply nth_error_In; eauto|].
    eapply hv_block; eauto.
  - cbn [fst snd] in *. rewrite A3. cbn [bind]. split; [|split; [|split; [|split]]].
    + constructor; simpl; try (apply G3).
      * intros m. rewrite upd_true. intros [->|Q]; [|apply (g_blk s3 G3); auto].
        exists b, xs, ys. repeat (split; [assumption|]). intros j v y J Y. apply (V3 v y).
        eapply combine_nth_In; eauto.
      * intros m. rewrite upd_true. intros [->|Q]; [|apply (g_log s3 G3); auto].
        rewrite (e_log _ _ E3). simpl. apply in_or_app; simpl; auto.
    + constructor; simpl.
      * intros i Q. apply (e_iv _ _ E3). simpl. apply (e_iv _ _ E1); auto.
      * intros v Q. apply (e_var _ _ E3). simpl. apply (e_var _ _ E1); auto.
      * intros p qt Np Q. eapply (e_pipe _ _ E3); eauto. simpl. eapply (e_pipe _ _ E1); eauto.
      * intros m Q. rewrite upd_true. right. rewrite (e_blk _ _ E3). simpl. rewrite (e_blk _ _ E1). auto.
    + simpl. rewrite (e_log _ _ E3). simpl. rewrite (e_log _ _ E1). reflexivity.
    + simpl. rewrite (e_blk _ _ E3). simpl. rewrite (e_blk _ _ E1). reflexivity.
    + simpl. rewrite Iv3. simpl. exact Iv1.
Qed.

(** ** Whole-operation invariant *)
Record inv (s : state) : Prop := {
  i_good : good s;
  i_def : defaults_agree s;
  i_logged : forall n, In n (evaluated s) -> s_blk s n = true }.

Definition explained (P : nat -> Prop) (e : exn) : Prop :=
  (e = TypeError /\ bad_type)
  \/ (exists n b xs, P n /\ nth_error (blocks w) n = Some b /\ hvs (b_in b) xs /\ evaluate n xs = Err e).

Lemma explained_mono (P Q : nat -> Prop) e : (forall n, P n -> Q n) -> explained P e -> explained Q e.
Proof. intros H [A|[n [b [xs [A B]]]]]; [left; auto|right; exists n, b, xs; auto]. Qed.

Lemma ext_logged s s' : ext s s' -> (forall n, In n (evaluated s) -> s_blk s n = true) ->
  forall n, In n (evaluated s') -> s_blk s' n = true.
Proof. intros E H n. rewrite (e_log _ _ E), (e_blk _ _ E). auto. Qed.

Variable o : nat.
Hypothesis OUT : output w = Some o.

Lemma activable_In (s : state) : exists rt, runtime_blocks = Ok rt /\ (forall n, In n rt <-> needed w n) /\
  exists l, activable_blocks s = Ok l /\
   forall n, In n l <-> n < length (blocks w) /\ block_activable_by_inputs w n s = true
                        /\ (s_blk s n = false \/ ~ needed w n).
Proof.
  destruct (runtime_blocks_ok w WF default lock_flag LS set_order SO o OUT) as [rt [R C]].
  exists rt. split; auto. split; auto. unfold ExecModel.activable_blocks. rewrite R. simpl.
  eexists. split; [reflexivity|]. intros n. rewrite filter_In, in_seq, andb_true_iff, orb_true_iff, !negb_true_iff.
  rewrite (memb_In_false _ nat_eqb_iff), C. simpl. intuition lia.
Qed.

Lemma activable_inputs n b (s : state) :
  nth_error (blocks w) n = Some b -> block_activable_by_inputs w n s = true ->
  forall v, In v (b_in b) -> s_var s v = true.
Proof.
  intros N H. unfold block_activable_by_inputs in H. rewrite N in H. rewrite forallb_forall in H. auto.
Qed.

Definition can_evaluate (n : nat) (s : state) : Prop :=
  n < length (blocks w) /\ block_activable_by_inputs w n s = true /\ (s_blk s n = false \/ ~ needed w n).

Lemma block_evaluation_good n s :
  inv s -> n < length (blocks w) ->
  match block_evaluation n s with
  | Ok (true, s') => inv s' /\ grows s s' /\ evaluated s' = evaluated s ++ [n] /\ s_blk s' n = true
       /\ (s_blk s n = false \/ ~ needed w n)
       /\ (forall m, s_blk s' m = true -> m = n \/ s_blk s m = true)
  | Ok (false, s') => inv s' /\ ext s s' /\ ~ can_evaluate n s'
  | Err e => explained (eq n) e
  end.
Proof.
  intros [Gd D Lg] L. unfold ExecModel.block_evaluation.
  assert (Lb : (n <? length (blocks w)) = true) by (apply Nat.ltb_lt; auto). rewrite Lb.
  pose proof (activate_inputs_good false s Gd D) as A.
  destruct (activate_inputs false s) as [s1|e]; simpl.
  - destruct A as [G1 [E1 [D1 _]]].
    destruct (activable_In s1) as [rt [_ [_ [l [El Cl]]]]]. rewrite El. simpl.
    destruct (memb Nat.eqb n l) eqn:M.
    + apply (memb_In _ nat_eqb_iff) in M. apply Cl in M. destruct M as [_ [Ac Nd]].
      destruct (nth_error (blocks w) n) as [b|] eqn:N; [|apply nth_error_None in N; lia].
      pose proof (evaluate_block_good n b s1 G1 N (activable_inputs n b s1 N Ac)) as EB.
      destruct (evaluate_block n s1) as [s2|e]; simpl.
      * destruct EB as [G2 [Gr [Lg2 [Bk Iv]]]]. rewrite (e_log _ _ E1) in Lg2. rewrite (e_blk _ _ E1) in *.
        split; [|split; [|split; [|split; [|split]]]]; auto.
        -- constructor; auto.
           ++ eapply defaults_agree_mono; [apply Gr|auto].
           ++ intros m I. rewrite Lg2 in I. rewrite Bk, upd_true.
              apply in_app_or in I. destruct I as [I|[<-|[]]]; auto.
        -- eapply grows_trans; [apply ext_grows; eauto|auto].
        -- rewrite Bk. apply upd_same.
        -- intros m. rewrite Bk, upd_true. tauto.
      * destruct EB as [xs [HX Ev]]. right. exists n, b, xs. auto.
    + apply (memb_In_false _ nat_eqb_iff) in M. split; [|split; auto].
      * constructor; auto. apply (ext_logged _ _ E1 Lg).
      * intros C. apply M. apply Cl. auto.
  - destruct A as [A|[_ [A _]]]; [left; auto|discriminate].
Qed.


Lemma can_evaluate_ext n s s' : ext s s' -> can_evaluate n s -> can_evaluate n s'.
Proof.
  intros E [L [A D]]. split; auto. split; [|rewrite (e_blk _ _ E); auto].
  unfold block_activable_by_inputs in *. destruct (nth_error (blocks w) n); auto.
  rewrite forallb_forall in *. intros v I. apply (e_var _ _ E); auto.
Qed.

Lemma can_evaluate_grows n s s' :
  grows s s' -> can_evaluate n s -> s_blk s' n = true \/ can_evaluate n s'.
Proof.
  intros E [L [A D]]. destruct (s_blk s' n) eqn:B; auto. right. split; auto. split; auto.
  unfold block_activable_by_inputs in *. destruct (nth_error (blocks w) n); auto.
  rewrite forallb_forall in *. intros v I. apply (gr_var _ _ E); auto.
Qed.

Notation evaluate_next_block := (evaluate_next_block w default lock_flag type_ok evaluate set_order).
Notation run_loop := (run_loop w default lock_flag type_ok evaluate set_order).
Notation continue_run := (continue_run w default lock_flag type_ok evaluate set_order).
Notation completed := (completed w default lock_flag set_order).
Notation start_run := (start_run w default lock_flag type_ok).

Lemma activate_inputs_inv s :
  inv s ->
  match activate_inputs false s with
  | Ok s' => inv s' /\ ext s s'
  | Err e => e = TypeError /\ bad_type
  end.
Proof.
  intros [Gd D Lg]. pose proof (activate_inputs_good false s Gd D) as A.
  destruct (activate_inputs false s) as [s1|e].
  - destruct A as [G1 [E1 [D1 _]]]. split; auto. constructor; auto. apply (ext_logged _ _ E1 Lg).
  - destruct A as [A|[_ [A _]]]; [auto|discriminate].
Qed.

Lemma evaluate_next_good s :
  inv s ->
  match evaluate_next_block s with
  | Ok (Some n, s') => inv s' /\ grows s s' /\ n < length (blocks w) /\ evaluated s' = evaluated s ++ [n]
        /\ (s_blk s n = false \/ ~ needed w n)
  | Ok (None, s') => inv s' /\ ext s s' /\ forall n, ~ can_evaluate n s'
  | Err e => explained (fun _ => True) e
  end.
Proof.
  intros I. unfold ExecModel.evaluate_next_block.
  pose proof (activate_inputs_inv s I) as A.
  destruct (activate_inputs false s) as [s1|e]; simpl; [|left; auto].
  destruct A as [I1 E1].
  destruct (activable_In s1) as [rt [_ [_ [l [El Cl]]]]]. rewrite El. simpl.
  destruct l as [|n l].
  - split; auto. split; auto. intros n C. apply (Cl n). exact C.
  - assert (C : can_evaluate n s1) by (apply Cl; simpl; auto).
    assert (L : n < length (blocks w)) by apply C.
    pose proof (block_evaluation_good n s1 I1 L) as B.
    destruct (block_evaluation n s1) as [[[|] s2]|e]; simpl; [| |eapply explained_mono; [|exact B]; auto].
    + destruct B as [I2 [Gr [Lg [_ [Nd _]]]]]. split; auto. split; [eapply grows_trans; [apply ext_grows; eauto|auto]|].
      split; auto. rewrite (e_log _ _ E1) in Lg. rewrite (e_blk _ _ E1) in Nd. auto.
    + destruct B as [_ [E2 NC]]. exfalso. apply NC. eapply can_evaluate_ext; eauto.
Qed.

(** Each block recorded once, and only needed ones. *)
Definition clean (s : state) : Prop :=
  NoDup (evaluated s) /\ forall n, In n (evaluated s) -> needed w n.

Lemma NoDup_snoc {A} (l : list A) x : NoDup l -> ~ In x l -> NoDup (l ++ [x]).
Proof.
  intros N H. apply NoDup_app; auto.
  - constructor; auto. constructor.
  - intros y I [<-|[]]. auto.
Qed.

Lemma needed_valid n : needed w n -> n < length (blocks w).
Proof.
  intros N. inversion N as [o' n' b _ Nb _|m n' F _]; subst.
  - apply nth_error_Some; congruence.
  - destruct F as [bm [bn [q [t [Nm _]]]]]; apply nth_error_Some; congruence.
Qed.

Lemma round_good bs : forall s,
  inv s -> (forall n, In n bs -> needed w n) ->
  match foldM (fun s b => let* r := block_evaluation b s in Ok (snd r)) bs s with
  | Ok s' => inv s' /\ grows s s' /\ (clean s -> clean s')
             /\ (forall n, In n bs -> can_evaluate n s -> s_blk s' n = true)
  | Err e => explained (needed w) e
  end.
Proof.
  induction bs as [|n bs IH]; intros s I Hn.
  - simpl. split; auto. split; [apply grows_refl|]. split; [auto|intros n []].
  - assert (Nn : needed w n) by (apply Hn; simpl; auto).
    assert (L := needed_valid n Nn).
    pose proof (block_evaluation_good n s I L) as B. simpl.
    destruct (block_evaluation n s) as [[[|] s1]|e]; simpl; [| |eapply explained_mono; [|exact B]; intros; subst; auto].
    + destruct B as [I1 [Gr [Lg [Bn [Nd Bm]]]]].
      assert (Bf : s_blk s n = false) by (destruct Nd; [auto|contradiction]).
      specialize (IH s1 I1 (fun m Im => Hn m (or_intror Im))).
      destruct (foldM _ bs s1) as [s2|e]; auto. destruct IH as [I2 [Gr2 [Cl2 D2]]].
      split; auto. split; [eapply grows_trans; eauto|]. split.
      * intros [ND Ne]. apply Cl2. split; rewrite Lg.
        -- apply NoDup_snoc; auto. intros J. apply (i_logged s I) in J. congruence.
        -- intros m J. apply in_app_or in J. destruct J as [J|[<-|[]]]; auto.
      * intros m [<-|J] C; [apply (gr_blk _ _ Gr2); auto|].
        destruct (can_evaluate_grows m s s1 Gr C) as [Q|Q]; [apply (gr_blk _ _ Gr2); auto|auto].
    + destruct B as [I1 [E1 NC]].
      specialize (IH s1 I1 (fun m Im => Hn m (or_intror Im))).
      destruct (foldM _ bs s1) as [s2|e]; auto. destruct IH as [I2 [Gr2 [Cl2 D2]]].
      split; auto. split; [eapply grows_trans; [apply ext_grows; eauto|auto]|]. split.
      * intros [ND Ne]. apply Cl2. split; rewrite (e_log _ _ E1); auto.
      * intros m [<-|J] C; [exfalso; apply NC; eapply can_evaluate_ext; eauto|].
        apply D2; auto. eapply can_evaluate_ext; eauto.
Qed.

Definition undone (s : state) : nat :=
  length (filter (fun b => negb (s_blk s b)) (seq 0 (length (blocks w)))).

Lemma filter_le {A} (f g : A -> bool) l :
  (forall x, In x l -> f x = true -> g x = true) -> length (filter f l) <= length (filter g l).
Proof.
  induction l as [|x l IH]; simpl; intros H; auto.
  assert (IH' := IH (fun y I => H y (or_intror I))).
  destruct (f x) eqn:F; [rewrite (H x (or_introl eq_refl) F); simpl; lia|]. destruct (g x); simpl; lia.
Qed.

Lemma filter_lt {A} (f g : A -> bool) l y :
  (forall x, In x l -> f x = true -> g x = true) -> In y l -> f y = false -> g y = true ->
  length (filter f l) < length (filter g l).
Proof.
  induction l as [|x l IH]; simpl; intros H I Fy Gy; [contradiction|].
  assert (H' := fun z J => H z (or_intror J)).
  destruct I as [->|I].
  - rewrite Fy, Gy. simpl. assert (Q := filter_le f g l H'). lia.
  - assert (Q := IH H' I Fy Gy). destruct (f x) eqn:F; [rewrite (H x (or_introl eq_refl) F); simpl; lia|].
    destruct (g x); simpl; lia.
Qed.

Lemma run_loop_good n : forall s,
  inv s -> undone s < n ->
  match run_loop n s with
  | Ok s' => inv s' /\ grows s s' /\ (clean s -> clean s') /\ (forall m, needed w m -> ~ can_evaluate m s')
  | Err e => explained (needed w) e
  end.
Proof.
  induction n as [|n IH]; intros s I U; [lia|]. cbn [ExecModel.run_loop].
  destruct (activable_In s) as [rt [Er [Cr [l [El Cl]]]]]. rewrite Er, El. cbn [bind].
  destruct (filter (fun b => memb Nat.eqb b l) rt) as [|b bs] eqn:F.
  - split; auto. split; [apply grows_refl|]. split; auto.
    intros m Nm C. assert (J : In m (filter (fun b => memb Nat.eqb b l) rt)).
    { apply filter_In. split; [apply Cr; auto|]. apply (memb_In _ nat_eqb_iff). apply Cl. exact C. }
    rewrite F in J. destruct J.
  - assert (Hb : forall m, In m (b :: bs) -> needed w m /\ can_evaluate m s).
    { rewrite <- F. intros m J. apply filter_In in J. destruct J as [J1 J2]. split; [apply Cr; auto|].
      apply (memb_In _ nat_eqb_iff) in J2. apply Cl; auto. }
    pose proof (round_good (b :: bs) s I (fun m J => proj1 (Hb m J))) as R.
    destruct (foldM _ (b :: bs) s) as [s1|e]; cbn [bind]; auto.
    destruct R as [I1 [Gr [Cl1 D]]].
    destruct (Hb b (or_introl eq_refl)) as [Nb Cb].
    assert (U1 : undone s1 < undone s).
    { unfold undone. apply (filter_lt _ _ _ b).
      - intros x _. rewrite !negb_true_iff. intros Q. destruct (s_blk s x) eqn:Z; auto.
        apply (gr_blk _ _ Gr) in Z. congruence.
      - apply in_seq. pose proof (needed_valid b Nb). lia.
      - rewrite (D b (or_introl eq_refl) Cb). reflexivity.
      - destruct Cb as [_ [_ [->|Q]]]; [reflexivity|contradiction]. }
    specialize (IH s1 I1 ltac:(lia)).
    destruct (run_loop n s1) as [s2|e]; auto.
    destruct IH as [I2 [Gr2 [Cl2 S2]]]. split; auto. split; [eapply grows_trans; eauto|]. split; auto.
Qed.

Lemma undone_le s : undone s <= length (blocks w).
Proof.
  unfold undone. transitivity (length (seq 0 (length (blocks w)))).
  - clear. induction (seq 0 (length (blocks w))) as [|x l IH]; simpl; auto. destruct (negb (s_blk s x)); simpl; lia.
  - rewrite seq_length. auto.
Qed.

Lemma continue_run_good s :
  inv s ->
  match continue_run s with
  | Ok s' => inv s' /\ grows s s' /\ (clean s -> clean s') /\ (forall m, needed w m -> ~ can_evaluate m s')
  | Err e => explained (needed w) e
  end.
Proof.
  intros I. unfold ExecModel.continue_run. pose proof (activate_inputs_inv s I) as A.
  destruct (activate_inputs false s) as [s1|e]; cbn [bind]; [|left; auto]. destruct A as [I1 E1].
  assert (U : undone s1 < S (S (length (blocks w)))) by (pose proof (undone_le s1); lia).
  pose proof (run_loop_good _ s1 I1 U) as R.
  destruct (run_loop _ s1) as [s2|e]; auto. destruct R as [I2 [Gr [Cl S2]]].
  split; auto. split; [eapply grows_trans; [apply ext_grows; eauto|auto]|]. split; auto.
  intros [ND Ne]. apply Cl. split; rewrite (e_log _ _ E1); auto.
Qed.

(** ** Starting *)
Definition initial (iv : nat -> option V) : state :=
  mkState iv (fun _ => false) (fun _ => false) (fun _ => None) None [].

Definition starts_with (iv : nat -> option V) : Prop :=
  (forall i v x, nth_error (inputs w) i = Some v -> iv i = Some x -> G v = Some x)
  /\ (forall i v d, nth_error (inputs w) i = Some v -> iv i = None -> default v = Some d -> G v = Some d).

Lemma initial_inv iv : starts_with iv -> inv (initial iv).
Proof.
  intros [H1 H2]. constructor; simpl; [|exact H2|tauto].
  constructor; simpl; try discriminate; try congruence; try tauto.
  - intros l1 n l2 E. destruct l1; discriminate.
Qed.

Lemma start_run_good iv : starts_with iv ->
  match start_run iv with
  | Ok s => inv s /\ evaluated s = [] /\ (forall i, iv i <> None -> s_iv s i <> None)
  | Err e => explained (needed w) e
  end.
Proof.
  intros H. unfold ExecModel.start_run. pose proof (activate_inputs_inv _ (initial_inv iv H)) as A.
  unfold initial in A.
  destruct (activate_inputs false _) as [s1|e]; [|left; auto]. destruct A as [I1 E1].
  split; auto. split; [rewrite (e_log _ _ E1); reflexivity|]. apply (e_iv _ _ E1).
Qed.

Lemma completed_ok s : exists c, completed s = Ok c /\ (c = true <-> forall n, needed w n -> s_blk s n = true).
Proof.
  unfold ExecModel.completed. destruct (activable_In s) as [rt [Er [Cr _]]]. rewrite Er. simpl.
  eexists. split; [reflexivity|]. rewrite forallb_forall. split; intros H n J; apply H; apply Cr; auto.
Qed.

(** ** What a completed state contains *)
Lemma output_value s :
  good s -> (forall n, needed w n -> s_blk s n = true) -> forall x, s_out s = Some x <-> hv o x.
Proof.
  intros Gd D x. split.
  - intros E. destruct (g_out s Gd x E) as [o' [O H]]. assert (o' = o) by congruence. subst; auto.
  - intros H. destruct (wf_output w WF o OUT) as [b [Ib Jb]].
    apply In_nth_error in Ib. destruct Ib as [n N].
    assert (Nn : needed w n) by (eapply needed_output; eauto).
    destruct (g_blk s Gd n (D n Nn)) as [b' [xs [ys [N' [HX [Ev Al]]]]]].
    rewrite N in N'; inversion N'; subst b'.
    inversion H as [v' x' I' E'|s' t' x' P' H'|n' b' xs' ys' j v' y' Nb HV EV J Y]; subst.
    + exfalso. apply (inputs_In w WF) in I'. eapply input_not_out; eauto.
    + exfalso. destruct (wf_target w WF _ _ P') as [bt [Ibt Jt]]. eapply io_absurd; eauto.
    + assert (n' = n). { eapply (ports_nth w WF) with (v := o); eauto; apply in_or_app; right; auto.
                         eapply nth_error_In; eauto. }
      subst n'. rewrite N in Nb; inversion Nb; subst b'.
      assert (xs' = xs) by (eapply hvs_functional; eauto). subst xs'.
      rewrite Ev in EV; inversion EV; subst ys'.
      assert (T : s_var s o = true) by (eapply Al; eauto).
      destruct (s_out s) as [z|] eqn:So; [|exfalso; exact (g_outset s Gd o OUT T So)].
      destruct (g_out s Gd z So) as [o' [O' Hz]]. assert (o' = o) by congruence. subst o'.
      f_equal. eapply hv_functional; eauto.
Qed.

Lemma pipe_value s p q t n b :
  good s -> (forall n, needed w n -> s_blk s n = true) ->
  nth_error (pipes w) p = Some (q, t) -> needed w n -> nth_error (blocks w) n = Some b -> In q (b_out b) ->
  forall x, s_pipe s p = Some x <-> hv q x.
Proof.
  intros Gd D Np Nn N Jq x. split; [apply (g_pipe s Gd p q t x Np)|]. intros H.
  destruct (g_blk s Gd n (D n Nn)) as [b' [xs [ys [N' [HX [Ev Al]]]]]].
  rewrite N in N'; inversion N'; subst b'.
  inversion H as [v' x' I' E'|s' t' x' P' H'|n' b' xs' ys' j v' y' Nb HV EV J Y]; subst.
  - exfalso. apply (inputs_In w WF) in I'. eapply input_not_out; eauto.
  - exfalso. destruct (wf_target w WF _ _ P') as [bt [Ibt Jt]]. eapply io_absurd; eauto.
  - assert (n' = n). { eapply (ports_nth w WF) with (v := q); eauto; apply in_or_app; right; auto.
                       eapply nth_error_In; eauto. }
    subst n'. rewrite N in Nb; inversion Nb; subst b'.
    assert (xs' = xs) by (eapply hvs_functional; eauto). subst xs'.
    rewrite Ev in EV; inversion EV; subst ys'.
    assert (T : s_var s q = true) by (eapply Al; eauto).
    apply (g_prop s Gd p q t Np) in T.
    destruct (s_pipe s p) as [z|] eqn:So; [|exfalso; exact (g_in_pipe s Gd p q t Np T So)].
    f_equal. eapply hv_functional; [|exact H]. eapply (g_pipe s Gd); eauto.
Qed.

(** ** Nothing is missing *)
Lemma all_done s (rank : nat -> nat) :
  good s ->
  (forall v, In v (inputs w) -> s_var s v = true) ->
  (forall m n, feeds w m n -> needed w n -> rank m < rank n) ->
  (forall n b xs ys, needed w n -> nth_error (blocks w) n = Some b -> hvs (b_in b) xs -> evaluate n xs = Ok ys ->
     length (b_out b) <= length ys) ->
  (forall m, needed w m -> ~ can_evaluate m s) ->
  forall n, needed w n -> s_blk s n = true.
Proof.
  intros Gd Hin Rk Long Stuck.
  assert (P : forall k n, rank n < k -> needed w n -> s_blk s n = true).
  { induction k as [|k IH]; intros n Lk Nn; [lia|].
    destruct (s_blk s n) eqn:B; auto. exfalso. apply (Stuck n Nn).
    assert (L := needed_valid n Nn). split; auto. split; auto.
    unfold block_activable_by_inputs. destruct (nth_error (blocks w) n) as [b|] eqn:N; [|apply nth_error_None in N; lia].
    apply forallb_forall. intros v J.
    destruct (upstream_variable w v) as [q|] eqn:U.
    - apply (upstream_variable_some w WF) in U.
      assert (U' := U). apply In_nth_error in U'. destruct U' as [p Np].
      apply (g_prop s Gd p q v Np).
      destruct (in_dec Nat.eq_dec q (block_variables w)) as [I|I].
      + apply in_block_variables in I. destruct I as [bm [Ibm [I|I]]].
        * exfalso. exact (wf_source w WF _ _ _ U Ibm I).
        * apply In_nth_error in Ibm. destruct Ibm as [m Nm].
          assert (F : feeds w m n) by (exists bm, b, q, v; auto).
          assert (Nd : needed w m) by (eapply needed_upstream; eauto).
          assert (R := Rk m n F Nn).
          destruct (g_blk s Gd m (IH m ltac:(lia) Nd)) as [b' [xs [ys [N' [HX [Ev Al]]]]]].
          rewrite Nm in N'; inversion N'; subst b'.
          apply In_nth_error in I. destruct I as [j Nj].
          destruct (nth_error ys j) as [y|] eqn:Y; [eapply Al; eauto|].
          exfalso. apply nth_error_None in Y. assert (Q := Long m bm xs ys Nd Nm HX Ev).
          assert (j < length (b_out bm)) by (apply nth_error_Some; congruence). lia.
      + apply Hin. apply (inputs_In w WF). right. split; auto. apply in_map_iff. exists (q, v); auto.
    - apply (upstream_variable_none w WF) in U. apply Hin. apply (inputs_In w WF). left. exists b.
      split; auto. eapply nth_error_In; eauto. }
  intros n. apply (P (S (rank n))). lia.
Qed.

(** ** Interactive sessions *)
Notation act := (act w default lock_flag type_ok evaluate set_order).

Definition agrees (a : action V) : Prop :=
  match a with
  | AddInput i x => forall v, nth_error (inputs w) i = Some v -> G v = Some x
  | _ => True
  end.

Lemma act_good a s :
  inv s -> agrees a ->
  match act s a with
  | Ok s' => inv s' /\ grows s s'
  | Err e => explained (fun _ => True) e \/ e = IndexError
  end.
Proof.
  intros I A. destruct a as [i x|n| |]; simpl.
  - unfold add_input_value. destruct (nth_error (inputs w) i) as [v|] eqn:N; simpl; [|auto].
    simpl in A. assert (Gx := A v N). destruct (type_ok v x) eqn:T.
    + destruct (activate_input_good i v x s (i_good s I) N Gx T) as [s1 [E [G1 [E1 _]]]].
      rewrite E. split; [|apply ext_grows; auto]. constructor; auto.
      * eapply defaults_agree_mono; [apply E1|apply I].
      * apply (ext_logged _ _ E1 (i_logged s I)).
    + unfold ExecModel.activate_input. rewrite T. left. left. split; auto. exists v, x.
      split; auto. eapply nth_error_In; eauto.
  - destruct (le_lt_dec (length (blocks w)) n) as [L|L].
    + unfold ExecModel.block_evaluation. assert (Q : (n <? length (blocks w)) = false) by (apply Nat.ltb_ge; auto).
      rewrite Q. simpl. auto.
    + pose proof (block_evaluation_good n s I L) as B.
      destruct (block_evaluation n s) as [[[|] s1]|e]; simpl; [| |left; eapply explained_mono; [|exact B]; auto].
      * destruct B as [? [? _]]; auto.
      * destruct B as [? [? _]]. split; auto. apply ext_grows; auto.
  - pose proof (evaluate_next_good s I) as B.
    destruct (evaluate_next_block s) as [[[n|] s1]|e]; simpl; auto.
    + destruct B as [? [? _]]; auto.
    + destruct B as [? [? _]]. split; auto. apply ext_grows; auto.
  - pose proof (continue_run_good s I) as B.
    destruct (continue_run s) as [s1|e]; [|left; eapply explained_mono; [|exact B]; auto].
    destruct B as [? [? _]]; auto.
Qed.

Lemma acts_good acts : forall s,
  inv s -> (forall a, In a acts -> agrees a) ->
  match foldM act acts s with
  | Ok s' => inv s' /\ grows s s'
  | Err e => explained (fun _ => True) e \/ e = IndexError
  end.
Proof.
  induction acts as [|a acts IH]; intros s I A; simpl.
  - split; auto. apply grows_refl.
  - pose proof (act_good a s I (A a (or_introl eq_refl))) as B.
    destruct (act s a) as [s1|e]; simpl; auto. destruct B as [I1 Gr].
    specialize (IH s1 I1 (fun a' J => A a' (or_intror J))).
    destruct (foldM act acts s1) as [s2|e]; auto. destruct IH as [I2 Gr2]. split; auto.
    eapply grows_trans; eauto.
Qed.

End E.

(** Lemmas on the structure of workflows. *)
From Coq Require Import List Bool Arith Lia Permutation.
From Verif Require Import Base BaseProofs ExecModel ExecSpec.
Import ListNotations.

Lemma nat_eqb_iff : forall x y : nat, Nat.eqb x y = true <-> x = y.
Proof. intros; apply Nat.eqb_eq. Qed.

Lemma mem_In v l : mem v l = true <-> In v l.
Proof. apply (memb_In _ nat_eqb_iff). Qed.
Lemma mem_false v l : mem v l = false <-> ~ In v l.
Proof. apply (memb_In_false _ nat_eqb_iff). Qed.

Lemma enumerate_In {A} (l : list A) i x : In (i, x) (enumerate l) <-> nth_error l i = Some x.
Proof.
  unfold enumerate.
  assert (G : forall k, In (i, x) (combine (seq k (length l)) l) <-> (k <= i /\ nth_error l (i - k) = Some x)).
  { induction l as [|y l IH]; intros k; simpl.
    - split; [tauto|]. intros [_ H]. destruct (i - k); discriminate.
    - rewrite IH. split.
      + intros [H|[L H]].
        * inversion H; subst. rewrite Nat.sub_diag. auto.
        * split; [lia|]. replace (i - k) with (S (i - S k)) by lia. auto.
      + intros [L H]. destruct (Nat.eq_dec i k).
        * subst. rewrite Nat.sub_diag in H. simpl in H. inversion H; auto.
        * right. split; [lia|]. replace (i - k) with (S (i - S k)) in H by lia. auto. }
  rewrite G. rewrite Nat.sub_0_r. split; [tauto|]. intros; split; auto with arith.
Qed.

Lemma enumerate_snd {A} (l : list A) : map snd (enumerate l) = l.
Proof.
  unfold enumerate. generalize 0. induction l; intros k; simpl; auto. f_equal; auto.
Qed.

Lemma NoDup_app_l {A} (a b : list A) : NoDup (a ++ b) -> NoDup a.
Proof.
  induction a; simpl; intros H; [constructor|]. inversion H; subst. constructor; auto.
  intros I; apply H2; apply in_or_app; auto.
Qed.
Lemma NoDup_app_r {A} (a b : list A) : NoDup (a ++ b) -> NoDup b.
Proof. induction a; simpl; intros H; auto. inversion H; auto. Qed.
Lemma NoDup_app_disj {A} (a b : list A) x : NoDup (a ++ b) -> In x a -> In x b -> False.
Proof.
  induction a; simpl; intros H I J; [tauto|]. inversion H; subst. destruct I as [->|I]; auto.
  apply H2; apply in_or_app; auto.
Qed.

Lemma NoDup_app {A} (a b : list A) :
  NoDup a -> NoDup b -> (forall x, In x a -> In x b -> False) -> NoDup (a ++ b).
Proof.
  induction a; simpl; intros Ha Hb D; auto. inversion Ha; subst. constructor.
  - intros I. apply in_app_or in I. destruct I; auto. eapply D; simpl; eauto.
  - apply IHa; auto. intros x I J. eapply D; simpl; eauto.
Qed.

(** ** variables *)
Definition pipe_ends (ps : list (nat * nat)) : list nat := flat_map (fun p => [fst p; snd p]) ps.

Lemma handle_pipes_inv ps : forall base vs nb vs' nb',
  fold_left handle_pipe ps (vs, nb) = (vs', nb') ->
  vs = base ++ nb -> NoDup vs ->
  vs' = base ++ nb' /\ NoDup vs'
  /\ (forall v, In v nb' <-> In v nb \/ (In v (pipe_ends ps) /\ ~ In v base)).
Proof.
  induction ps as [|p ps IH]; intros base vs nb vs' nb' H E ND; simpl in H.
  - inversion H; subst. split; auto. split; auto. simpl. intros; tauto.
  - unfold handle_pipe at 2 in H. simpl in H.
    assert (ADD : forall v (s : list nat * list nat), fst s = base ++ snd s -> NoDup (fst s) ->
      let s' := if mem v (fst s) then s else (fst s ++ [v], snd s ++ [v]) in
      fst s' = base ++ snd s' /\ NoDup (fst s') /\
      (forall u, In u (snd s') <-> In u (snd s) \/ (u = v /\ ~ In v base))).
    { intros v s Es Ns. simpl. destruct (mem v (fst s)) eqn:M.
      - split; auto. split; auto. intros u. split; [auto|]. intros [I|[-> N]]; auto.
        apply mem_In in M. rewrite Es in M. apply in_app_or in M. tauto.
      - apply mem_false in M. simpl. split; [rewrite Es, app_assoc; auto|]. split.
        + apply NoDup_app; auto; [repeat constructor; simpl; tauto|]. simpl. intros a I [->|[]]; auto.
        + intros u. rewrite in_app_iff. simpl. rewrite Es, in_app_iff in M. intuition congruence. }
    pose proof (ADD (fst p) (vs, nb) E ND) as A1. simpl in A1.
    set (s1 := if mem (fst p) vs then (vs, nb) else (vs ++ [fst p], nb ++ [fst p])) in *.
    destruct A1 as [E1 [N1 C1]].
    pose proof (ADD (snd p) s1 E1 N1) as A2. simpl in A2.
    set (s2 := if mem (snd p) (fst s1) then s1 else (fst s1 ++ [snd p], snd s1 ++ [snd p])) in *.
    destruct A2 as [E2 [N2 C2]].
    destruct s2 as [vs2 nb2]. simpl in *.
    destruct (IH base vs2 nb2 vs' nb' H E2 N2) as [R1 [R2 R3]].
    split; auto. split; auto. intros v. rewrite R3, C2, C1. simpl.
    assert (D : In v base \/ ~ In v base) by (destruct (in_dec Nat.eq_dec v base); auto).
    split; intros HH; intuition (subst; auto).
Qed.

Section S.
Variable w : workflow.
Hypothesis WF : well_formed w.

Lemma variables_split : variables w = block_variables w ++ nonblock_variables w.
Proof.
  unfold variables, nonblock_variables, handle_pipes.
  destruct (fold_left handle_pipe (pipes w) (block_variables w, [])) as [vs nb] eqn:E. simpl.
  apply (handle_pipes_inv _ (block_variables w)) in E; [|rewrite app_nil_r; auto|apply WF]. tauto.
Qed.

Lemma variables_nodup : NoDup (variables w).
Proof.
  unfold variables, handle_pipes.
  destruct (fold_left handle_pipe (pipes w) (block_variables w, [])) as [vs nb] eqn:E. simpl.
  apply (handle_pipes_inv _ (block_variables w)) in E; [|rewrite app_nil_r; auto|apply WF]. tauto.
Qed.

Lemma in_block_variables v :
  In v (block_variables w) <-> exists b, In b (blocks w) /\ (In v (b_in b) \/ In v (b_out b)).
Proof.
  unfold block_variables. rewrite in_flat_map. split; intros [b [I J]]; exists b; split; auto;
    rewrite in_app_iff in *; auto.
Qed.

Lemma nbv_In v :
  In v (nonblock_variables w) <-> In v (map fst (pipes w)) /\ ~ In v (block_variables w).
Proof.
  unfold nonblock_variables, handle_pipes.
  destruct (fold_left handle_pipe (pipes w) (block_variables w, [])) as [vs nb] eqn:E. simpl.
  apply (handle_pipes_inv _ (block_variables w)) in E; [|rewrite app_nil_r; auto|apply WF].
  destruct E as [_ [_ E]]. rewrite E. simpl. unfold pipe_ends. rewrite in_flat_map, in_map_iff.
  split.
  - intros [[]|[[[s t] [I J]] N]]. split; auto. simpl in J. destruct J as [->|[->|[]]]; [exists (v, t); auto|].
    exfalso. apply N. destruct (wf_target w WF _ _ I) as [b [Ib It]].
    apply in_block_variables; eauto.
  - intros [[[s t] [<- I]] N]. right. split; auto. exists (s, t). simpl; auto.
Qed.

Lemma in_variables v : In v (variables w) <-> In v (block_variables w) \/ In v (nonblock_variables w).
Proof. rewrite variables_split, in_app_iff. tauto. Qed.

(** Which port a variable is. *)
Lemma ports_nth n m b b' v :
  nth_error (blocks w) n = Some b -> nth_error (blocks w) m = Some b' ->
  In v (b_in b ++ b_out b) -> In v (b_in b' ++ b_out b') -> n = m.
Proof.
  pose proof (wf_ports w WF) as ND. unfold block_variables in ND.
  revert n m. induction (blocks w) as [|a bs IH]; intros n m N M I J.
  - destruct n; discriminate.
  - simpl in ND.
    assert (X : forall k c, nth_error bs k = Some c -> In v (b_in c ++ b_out c) ->
              In v (flat_map (fun b => b_in b ++ b_out b) bs)).
    { intros k c K Ic. apply in_flat_map. exists c; split; auto. eapply nth_error_In; eauto. }
    destruct n, m; simpl in *; auto.
    + inversion N; subst. exfalso. eapply NoDup_app_disj; eauto.
    + inversion M; subst. exfalso. eapply NoDup_app_disj; eauto.
    + f_equal. eapply IH; eauto. eapply NoDup_app_r; eauto.
Qed.

Lemma block_ports_nodup n b : nth_error (blocks w) n = Some b -> NoDup (b_in b ++ b_out b).
Proof.
  pose proof (wf_ports w WF) as ND. unfold block_variables in ND.
  revert n. induction (blocks w) as [|a bs IH]; intros n N.
  - destruct n; discriminate.
  - simpl in ND. destruct n; simpl in N.
    + inversion N; subst. eapply NoDup_app_l; eauto.
    + eapply IH; eauto. eapply NoDup_app_r; eauto.
Qed.

Lemma in_out_disjoint b b' v :
  In b (blocks w) -> In b' (blocks w) -> In v (b_in b) -> In v (b_out b') -> False.
Proof.
  intros I I' J J'. apply In_nth_error in I, I'. destruct I as [n N], I' as [m M].
  assert (n = m) by (apply (ports_nth n m b b' v N M); apply in_or_app; auto). subst.
  rewrite N in M; inversion M; subst.
  eapply NoDup_app_disj; [eapply block_ports_nodup; eauto|eauto|eauto].
Qed.

(** ** pipes *)
Lemma input_pipe_some v p s t :
  variable_input_pipe w v = Some (p, (s, t)) <-> nth_error (pipes w) p = Some (s, t) /\ t = v.
Proof.
  unfold variable_input_pipe. split.
  - intros H. apply find_some in H. destruct H as [I E]. simpl in E. apply Nat.eqb_eq in E.
    apply enumerate_In in I. auto.
  - intros [N <-].
    assert (ND := wf_single w WF).
    destruct (find _ _) as [[p' [s' t']]|] eqn:F.
    + apply find_some in F. destruct F as [I E]. simpl in E. apply Nat.eqb_eq in E. subst.
      apply enumerate_In in I.
      assert (p' = p).
      { rewrite NoDup_nth_error in ND. apply ND.
        - rewrite map_length. apply nth_error_Some. congruence.
        - rewrite !nth_error_map, I, N. reflexivity. }
      subst. rewrite N in I; inversion I; subst; auto.
    + exfalso. apply enumerate_In in N. eapply find_none in F; eauto. simpl in F.
      rewrite Nat.eqb_refl in F. discriminate.
Qed.

Lemma input_pipe_none v : variable_input_pipe w v = None <-> ~ In v (map snd (pipes w)).
Proof.
  destruct (variable_input_pipe w v) as [[p [s t]]|] eqn:E.
  - apply input_pipe_some in E. destruct E as [N ->]. split; [discriminate|]. intros H; exfalso; apply H.
    apply in_map_iff. exists (s, v); split; auto. eapply nth_error_In; eauto.
  - split; auto. intros _ H. apply in_map_iff in H. destruct H as [[s t] [<- I]].
    apply In_nth_error in I. destruct I as [p N].
    assert (variable_input_pipe w t = Some (p, (s, t))) by (apply input_pipe_some; auto).
    simpl in *; congruence.
Qed.

Lemma output_pipes_In v p s t :
  In (p, (s, t)) (variable_output_pipes w v) <-> nth_error (pipes w) p = Some (s, t) /\ s = v.
Proof.
  unfold variable_output_pipes. rewrite filter_In, enumerate_In. simpl. rewrite Nat.eqb_eq. tauto.
Qed.

Lemma upstream_variable_some v u : upstream_variable w v = Some u <-> In (u, v) (pipes w).
Proof.
  unfold upstream_variable. split.
  - destruct (variable_input_pipe w v) as [[p [s t]]|] eqn:E; simpl; intros H; inversion H; subst.
    apply input_pipe_some in E. destruct E as [N ->]. eapply nth_error_In; eauto.
  - intros I. apply In_nth_error in I. destruct I as [p N].
    assert (E : variable_input_pipe w v = Some (p, (u, v))) by (apply input_pipe_some; auto).
    rewrite E. reflexivity.
Qed.

Lemma upstream_variable_none v : upstream_variable w v = None <-> ~ In v (map snd (pipes w)).
Proof.
  rewrite <- input_pipe_none. unfold upstream_variable.
  destruct (variable_input_pipe w v); simpl; split; congruence.
Qed.

(** ** inputs *)
Lemma has_ancestor_iff v :
  In v (variables w) ->
  (has_ancestor w v = false <->
   (~ exists b, In b (blocks w) /\ In v (b_out b)) /\ ~ In v (map snd (pipes w))).
Proof.
  intros _. unfold has_ancestor. rewrite orb_false_iff. split.
  - intros [H1 H2]. split.
    + intros [b [I J]]. assert (E : existsb (fun b => mem v (b_out b)) (blocks w) = true).
      { apply existsb_exists. exists b; split; auto. apply mem_In; auto. } congruence.
    + intros H. apply in_map_iff in H. destruct H as [[s t] [<- I]]. simpl in H2.
      assert (E : existsb (fun p => Nat.eqb (snd p) t && negb (Nat.eqb (fst p) t)) (pipes w) = true).
      { apply existsb_exists. exists (s, t); split; auto. simpl. rewrite Nat.eqb_refl. simpl.
        apply negb_true_iff. apply Nat.eqb_neq. intros ->.
        destruct (wf_target w WF _ _ I) as [b [Ib It]]. eapply wf_source; eauto. }
      congruence.
  - intros [H1 H2]. split.
    + destruct (existsb _ (blocks w)) eqn:E; auto. apply existsb_exists in E.
      destruct E as [b [I M]]. apply mem_In in M. exfalso; eauto.
    + destruct (existsb _ (pipes w)) eqn:E; auto. apply existsb_exists in E.
      destruct E as [[s t] [I M]]. simpl in M. apply andb_true_iff in M. destruct M as [M _].
      apply Nat.eqb_eq in M; subst. exfalso. apply H2. apply in_map_iff. exists (s, v); auto.
Qed.

Lemma inputs_In v : In v (inputs w) <-> is_input w v.
Proof.
  unfold inputs, is_input. rewrite filter_In, negb_true_iff. split.
  - intros [I A]. assert (A' := proj1 (has_ancestor_iff v I) A). clear A. destruct A' as [A1 A2].
    apply in_variables in I. destruct I as [I|I].
    + left. apply in_block_variables in I. destruct I as [b [Ib [J|J]]]; [|exfalso; eauto].
      exists b; auto.
    + right. apply nbv_In; auto.
  - intros [[b [Ib [J N]]]|[I N]].
    + assert (Iv : In v (variables w)). { apply in_variables. left. apply in_block_variables; eauto. }
      split; auto. apply has_ancestor_iff; auto. split; auto. intros [b' [Ib' J']].
      exact (in_out_disjoint b b' v Ib Ib' J J').
    + assert (Iv : In v (variables w)). { apply in_variables. right. apply nbv_In; auto. }
      split; auto. apply has_ancestor_iff; auto. split.
      * intros [b' [Ib' J']]. apply N. apply in_block_variables; eauto.
      * intros H. apply in_map_iff in H. destruct H as [[s t] [<- Ip]].
        destruct (wf_target w WF _ _ Ip) as [b [Ib It]]. apply N. apply in_block_variables; eauto.
Qed.

Lemma inputs_nodup : NoDup (inputs w).
Proof. apply NoDup_filter. apply variables_nodup. Qed.

Lemma nbv_not_target v : In v (nonblock_variables w) -> ~ In v (map snd (pipes w)).
Proof.
  intros I H. apply nbv_In in I. destruct I as [_ N]. apply in_map_iff in H. destruct H as [[s t] [<- Ip]].
  destruct (wf_target w WF _ _ Ip) as [b [Ib It]]. apply N. apply in_block_variables; eauto.
Qed.

Lemma get_upstream_nbv_free v : ~ In v (map snd (pipes w)) -> get_upstream_nbv w v = v.
Proof.
  intros N. unfold get_upstream_nbv. destruct (nonblock_variables w); auto.
  rewrite (proj2 (upstream_variable_none v) N). reflexivity.
Qed.

Lemma input_not_target v : In v (inputs w) -> ~ In v (map snd (pipes w)).
Proof.
  intros I. apply inputs_In in I. destruct I as [[b [_ [_ N]]]|[I N]]; auto.
  apply nbv_not_target. apply nbv_In; auto.
Qed.

Lemma input_index_some v i : In v (inputs w) -> (input_index w v = Some i <-> nth_error (inputs w) i = Some v).
Proof.
  intros I. unfold input_index. rewrite get_upstream_nbv_free by (apply input_not_target; auto). split.
  - intros H. apply (index_of_Some _ nat_eqb_iff) in H. tauto.
  - intros H. apply (index_of_nodup _ nat_eqb_iff); auto. apply inputs_nodup.
Qed.

Lemma input_index_exists v : In v (inputs w) -> exists i, input_index w v = Some i /\ nth_error (inputs w) i = Some v.
Proof.
  intros I. apply In_nth_error in I. destruct I as [i N]. exists i. split; auto.
  apply input_index_some; auto. eapply nth_error_In; eauto.
Qed.

(** ** addresses *)
Lemma find_port_some k bs v a :
  find_port k bs v = Some a ->
  exists n b o j, a = APort (k + n) o j /\ nth_error bs n = Some b
    /\ nth_error (if o then b_out b else b_in b) j = Some v.
Proof.
  revert k; induction bs as [|b bs IH]; intros k H; simpl in H; [discriminate|].
  destruct (index_of Nat.eqb v (b_in b)) as [j|] eqn:E1.
  - inversion H; subst. exists 0, b, false, j. rewrite Nat.add_0_r. split; auto. split; auto.
    apply (index_of_Some _ nat_eqb_iff) in E1. tauto.
  - destruct (index_of Nat.eqb v (b_out b)) as [j|] eqn:E2.
    + inversion H; subst. exists 0, b, true, j. rewrite Nat.add_0_r. split; auto. split; auto.
      apply (index_of_Some _ nat_eqb_iff) in E2. tauto.
    + apply IH in H. destruct H as [n [b' [o [j [-> [N M]]]]]]. exists (S n), b', o, j.
      split; auto. f_equal; lia.
Qed.

Lemma find_port_none k bs v :
  find_port k bs v = None <-> forall b, In b bs -> ~ In v (b_in b ++ b_out b).
Proof.
  revert k; induction bs as [|b bs IH]; intros k; simpl.
  - split; auto. 
  - destruct (index_of Nat.eqb v (b_in b)) as [j|] eqn:E1.
    + split; [discriminate|]. intros H. exfalso. apply (H b); auto. apply in_or_app. left.
      apply (index_of_Some _ nat_eqb_iff) in E1. destruct E1. eapply nth_error_In; eauto.
    + destruct (index_of Nat.eqb v (b_out b)) as [j|] eqn:E2.
      * split; [discriminate|]. intros H. exfalso. apply (H b); auto. apply in_or_app. right.
        apply (index_of_Some _ nat_eqb_iff) in E2. destruct E2. eapply nth_error_In; eauto.
      * rewrite IH. apply (index_of_None _ nat_eqb_iff) in E1. apply (index_of_None _ nat_eqb_iff) in E2.
        split; intros H.
        -- intros b' [<-|I]; auto. rewrite in_app_iff. tauto.
        -- intros b' I. apply H; auto.
Qed.

Lemma indices_port n b (o : bool) j v :
  nth_error (blocks w) n = Some b -> nth_error (if o then b_out b else b_in b) j = Some v ->
  variable_indices w v = Ok (APort n o j).
Proof.
  intros N M. unfold variable_indices.
  assert (I : In v (b_in b ++ b_out b)).
  { apply in_or_app. destruct o; [right|left]; eapply nth_error_In; eauto. }
  destruct (find_port 0 (blocks w) v) as [a|] eqn:F.
  - apply find_port_some in F. destruct F as [n' [b' [o' [j' [-> [N' M']]]]]]. simpl.
    assert (I' : In v (b_in b' ++ b_out b')).
    { apply in_or_app. destruct o'; [right|left]; eapply nth_error_In; eauto. }
    assert (n = n') by (eapply ports_nth; eauto). subst n'.
    rewrite N in N'; inversion N'; subst b'.
    pose proof (block_ports_nodup _ _ N) as ND.
    assert (o = o').
    { destruct o, o'; auto; exfalso; apply nth_error_In in M, M'; eapply NoDup_app_disj; eauto. }
    subst o'. do 2 f_equal.
    assert (NDo : NoDup (if o then b_out b else b_in b)).
    { destruct o; [eapply NoDup_app_r; eauto|eapply NoDup_app_l; eauto]. }
    rewrite NoDup_nth_error in NDo. apply NDo; [|congruence].
    apply nth_error_Some; congruence.
  - exfalso. rewrite find_port_none in F. apply (F b); auto. eapply nth_error_In; eauto.
Qed.

Lemma indices_nbv n v :
  nth_error (nonblock_variables w) n = Some v -> variable_indices w v = Ok (ANbv n).
Proof.
  intros N. assert (I := nth_error_In _ _ N). unfold variable_indices.
  assert (F : find_port 0 (blocks w) v = None).
  { apply find_port_none. intros b Ib J. apply nbv_In in I. destruct I as [_ I]. apply I.
    apply in_block_variables. exists b; split; auto. apply in_app_or in J; auto. }
  rewrite F. rewrite get_upstream_nbv_free by (apply nbv_not_target; auto).
  rewrite (index_of_nodup _ nat_eqb_iff v _ n); auto.
  pose proof variables_nodup as ND. rewrite variables_split in ND. eapply NoDup_app_r; eauto.
Qed.

Lemma indices_exists v : In v (variables w) -> exists a, variable_indices w v = Ok a /\ variable_from_index w a = Ok v.
Proof.
  intros I. apply in_variables in I. destruct I as [I|I].
  - apply in_block_variables in I. destruct I as [b [Ib J]]. apply In_nth_error in Ib. destruct Ib as [n N].
    destruct J as [J|J]; apply In_nth_error in J; destruct J as [j J].
    + exists (APort n false j). split; [eapply indices_port; eauto|]. simpl. rewrite N. simpl. rewrite J. reflexivity.
    + exists (APort n true j). split; [eapply indices_port; eauto|]. simpl. rewrite N. simpl. rewrite J. reflexivity.
  - apply In_nth_error in I. destruct I as [n N]. exists (ANbv n). split; [apply indices_nbv; auto|].
    simpl. rewrite N. reflexivity.
Qed.

Lemma from_index_indices a v : variable_from_index w a = Ok v -> variable_indices w v = Ok a.
Proof.
  destruct a as [n|n o j]; simpl.
  - destruct (nth_error (nonblock_variables w) n) eqn:N; simpl; intros H; inversion H; subst.
    apply indices_nbv; auto.
  - destruct (nth_error (blocks w) n) as [b|] eqn:N; simpl; [|discriminate].
    destruct (nth_error (if o then b_out b else b_in b) j) eqn:M; simpl; intros H; inversion H; subst.
    eapply indices_port; eauto.
Qed.

Lemma block_from_output n b v :
  nth_error (blocks w) n = Some b -> In v (b_out b) -> block_from_variable w v = Ok n.
Proof.
  intros N I. apply In_nth_error in I. destruct I as [j J]. unfold block_from_variable.
  rewrite (indices_port n b true j v N J). reflexivity.
Qed.

Lemma address_eqb_eq a b : address_eqb a b = true <-> a = b.
Proof.
  destruct a, b; simpl; split; intros H; try discriminate; try (inversion H; fail).
  - apply Nat.eqb_eq in H; congruence.
  - inversion H. apply Nat.eqb_refl.
  - rewrite !andb_true_iff in H. destruct H as [[H1 H2] H3].
    apply Nat.eqb_eq in H1, H3. apply Bool.eqb_prop in H2. congruence.
  - inversion H. rewrite !Nat.eqb_refl. destruct is_output0; reflexivity.
Qed.

Lemma pipe_end_in s t : In (s, t) (pipes w) -> In s (variables w) /\ In t (variables w).
Proof.
  intros I. rewrite !in_variables. split.
  - destruct (in_dec Nat.eq_dec s (block_variables w)); auto. right. apply nbv_In. split; auto.
    apply in_map_iff. exists (s, t); auto.
  - left. destruct (wf_target w WF _ _ I) as [b [Ib J]]. apply in_block_variables; eauto.
Qed.

Lemma pipe_lookup p s t a b :
  nth_error (pipes w) p = Some (s, t) ->
  variable_indices w s = Ok a -> variable_indices w t = Ok b ->
  pipe_from_variable_indices w a b = Ok p.
Proof.
  intros N A B. unfold pipe_from_variable_indices.
  assert (I : In (p, (s, t)) (enumerate (pipes w))) by (apply enumerate_In; auto).
  assert (ALL : forall ip, In ip (enumerate (pipes w)) -> nth_error (pipes w) (fst ip) = Some (snd ip)).
  { intros [q st] Iq. apply enumerate_In; auto. }
  revert I ALL. induction (enumerate (pipes w)) as [|[q [s' t']] l IH]; intros I ALL; [destruct I|].
  assert (Nq : nth_error (pipes w) q = Some (s', t')) by (apply (ALL (q, (s', t'))); simpl; auto).
  destruct (pipe_end_in s' t' (nth_error_In _ _ Nq)) as [Is It].
  destruct (indices_exists s' Is) as [a' [A' R']]. destruct (indices_exists t' It) as [b' [B' S']].
  simpl. rewrite A'. simpl.
  assert (Rec : (q, (s', t')) <> (p, (s, t)) -> In (p, (s, t)) l).
  { intros D. destruct I; congruence || auto. }
  destruct (address_eqb a' a) eqn:E.
  - rewrite B'. simpl. destruct (address_eqb b' b) eqn:E2.
    + apply address_eqb_eq in E2. subst b'.
      assert (t' = t).
      { assert (X := S'). destruct (indices_exists t) as [b2 [B2 S2]]; [eapply pipe_end_in; eapply nth_error_In; eauto|].
        rewrite B in B2; inversion B2; subst. congruence. }
      subst t'. f_equal.
      pose proof (wf_single w WF) as ND. rewrite NoDup_nth_error in ND. apply ND.
      * rewrite map_length. apply nth_error_Some. congruence.
      * rewrite !nth_error_map, Nq, N. reflexivity.
    + apply IH; [|intros; apply ALL; simpl; auto]. apply Rec. intros C; inversion C; subst.
      rewrite B in B'; inversion B'; subst. assert (address_eqb b' b' = true) by (apply address_eqb_eq; auto). congruence.
  - apply IH; [|intros; apply ALL; simpl; auto]. apply Rec. intros C; inversion C; subst.
    rewrite A in A'; inversion A'; subst. assert (address_eqb a' a' = true) by (apply address_eqb_eq; auto). congruence.
Qed.

End S.

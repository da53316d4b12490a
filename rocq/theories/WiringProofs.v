(** Rebuilding and copying a workflow give a relabelled diagram. *)
From Coq Require Import Bool Arith Lia List.
From Verif Require Import Base BaseProofs ExecModel ExecSpec ExecStruct VariablesModel WiringModel WiringSpec ExecProofs ExecTerm.
Import ListNotations.

Section Map.
Variable f : nat -> nat.
Variable dom : list nat.
Hypothesis INJ : forall u v, In u dom -> In v dom -> f u = f v -> u = v.

Lemma eqb_map u v : In u dom -> In v dom -> Nat.eqb (f u) (f v) = Nat.eqb u v.
Proof.
  intros Iu Iv. destruct (Nat.eqb_spec u v) as [->|D]; [apply Nat.eqb_refl|].
  apply Nat.eqb_neq. intros E. apply D. auto.
Qed.

Lemma mem_map v l : In v dom -> incl l dom -> mem (f v) (map f l) = mem v l.
Proof.
  intros Iv Il. unfold mem. destruct (memb Nat.eqb v l) eqn:M.
  - apply mem_In. apply mem_In in M. apply in_map; auto.
  - apply mem_false. apply mem_false in M. intros I. apply M. apply in_map_iff in I. destruct I as [u [E I]].
    assert (u = v) by (apply INJ; auto). subst; auto.
Qed.

Lemma handle_pipes_map ps : forall vs nb,
  incl vs dom -> incl nb dom -> (forall p, In p ps -> In (fst p) dom /\ In (snd p) dom) ->
  fold_left handle_pipe (map (fun p => (f (fst p), f (snd p))) ps) (map f vs, map f nb)
  = (map f (fst (fold_left handle_pipe ps (vs, nb))), map f (snd (fold_left handle_pipe ps (vs, nb)))).
Proof.
  induction ps as [|[s t] ps IH]; intros vs nb Iv In Ip; [reflexivity|].
  destruct (Ip (s, t)) as [Is It]; [simpl; auto|]. simpl in Is, It.
  cbn [map fold_left].
  assert (ADD : forall u vs nb, List.In u dom -> incl vs dom -> incl nb dom ->
     (if mem (f u) (map f vs) then (map f vs, map f nb) else (map f vs ++ [f u], map f nb ++ [f u]))
     = (map f (fst (if mem u vs then (vs, nb) else (vs ++ [u], nb ++ [u]))),
        map f (snd (if mem u vs then (vs, nb) else (vs ++ [u], nb ++ [u]))))
     /\ incl (fst (if mem u vs then (vs, nb) else (vs ++ [u], nb ++ [u]))) dom
     /\ incl (snd (if mem u vs then (vs, nb) else (vs ++ [u], nb ++ [u]))) dom).
  { intros u vs0 nb0 Iu I1 I2. rewrite (mem_map u vs0 Iu I1). destruct (mem u vs0); simpl.
    - auto.
    - rewrite !map_app. simpl. split; auto. split; intros x I; apply in_app_or in I; destruct I as [I|[<-|[]]]; auto. }
  unfold handle_pipe at 2 4 6. cbn [fst snd].
  destruct (ADD s vs nb Is Iv In) as [E1 [J1 J2]]. rewrite E1. cbn [fst snd].
  set (r1 := if mem s vs then (vs, nb) else (vs ++ [s], nb ++ [s])) in *.
  destruct (ADD t (fst r1) (snd r1) It J1 J2) as [E2 [J3 J4]]. rewrite E2.
  assert (R1 : (if mem t (fst r1) then r1 else (fst r1 ++ [t], snd r1 ++ [t]))
             = (if mem t (fst r1) then (fst r1, snd r1) else (fst r1 ++ [t], snd r1 ++ [t]))).
  { destruct r1; reflexivity. }
  rewrite R1. set (r2 := if mem t (fst r1) then (fst r1, snd r1) else (fst r1 ++ [t], snd r1 ++ [t])) in *.
  rewrite IH; auto; [|intros; apply Ip; simpl; auto]. destruct r2; reflexivity.
Qed.
End Map.

Section W.
Variable w : workflow.
Hypothesis WF : well_formed w.
Variable f : nat -> nat.
Hypothesis SEP : separates f w.

Lemma ports_incl : incl (block_variables w) (variables w).
Proof. intros v I. apply (in_variables w WF). auto. Qed.

Lemma ends_in p : In p (pipes w) -> In (fst p) (variables w) /\ In (snd p) (variables w).
Proof. destruct p as [s t]. intros I. simpl. exact (pipe_end_in w WF s t I). Qed.

Lemma block_variables_map : block_variables (relabel f w) = map f (block_variables w).
Proof.
  unfold block_variables, relabel. simpl. induction (blocks w) as [|b bs IH]; simpl; auto.
  rewrite !map_app, IH. reflexivity.
Qed.

Lemma handle_map : handle_pipes (relabel f w) = (map f (variables w), map f (nonblock_variables w)).
Proof.
  unfold handle_pipes, variables, nonblock_variables. rewrite block_variables_map.
  change (@nil nat) with (map f []) at 1. simpl pipes.
  rewrite (handle_pipes_map f (variables w) SEP); auto.
  - apply ports_incl.
  - intros x [].
  - apply ends_in.
Qed.

Lemma variables_map : variables (relabel f w) = map f (variables w).
Proof. unfold variables at 1. rewrite handle_map. reflexivity. Qed.
Lemma nbv_map : nonblock_variables (relabel f w) = map f (nonblock_variables w).
Proof. unfold nonblock_variables at 1. rewrite handle_map. reflexivity. Qed.

Lemma existsb_map {A B} (g : A -> B) (p : B -> bool) l : existsb p (map g l) = existsb (fun x => p (g x)) l.
Proof. induction l; simpl; congruence. Qed.
Lemma existsb_ext' {A} (p q : A -> bool) l : (forall x, In x l -> p x = q x) -> existsb p l = existsb q l.
Proof. induction l as [|x l IH]; simpl; intros H; auto. rewrite (H x (or_introl eq_refl)), IH; auto. Qed.

Lemma has_ancestor_map v : In v (variables w) -> has_ancestor (relabel f w) (f v) = has_ancestor w v.
Proof.
  intros I. unfold has_ancestor, relabel. simpl. rewrite !existsb_map. simpl. f_equal; apply existsb_ext'.
  - intros b Ib. apply (mem_map f (variables w) SEP); auto. intros x J. apply ports_incl.
    apply in_block_variables. eauto.
  - intros p Ip. destruct (ends_in p Ip) as [I1 I2]. rewrite !(eqb_map f (variables w) SEP); auto.
Qed.

Lemma filter_map_ext {A B} (g : A -> B) (p : B -> bool) (q : A -> bool) l :
  (forall x, In x l -> p (g x) = q x) -> filter p (map g l) = map g (filter q l).
Proof.
  induction l as [|x l IH]; simpl; intros H; auto. rewrite (H x (or_introl eq_refl)).
  destruct (q x); simpl; rewrite IH; auto.
Qed.

Lemma inputs_map : inputs (relabel f w) = map f (inputs w).
Proof.
  unfold inputs. rewrite variables_map. apply filter_map_ext. intros v I. rewrite has_ancestor_map; auto.
Qed.

(** ** rebuild *)
Lemma rename_blocks : map (rename_block f) (blocks w) = blocks (relabel f w).
Proof. reflexivity. Qed.

Lemma source_address s t : In (s, t) (pipes w) -> exists a, variable_indices w s = Ok a /\
  source_of (map (rename_block f) (blocks w)) (map f (nonblock_variables w)) a = Ok (f s).
Proof.
  intros P. destruct (pipe_end_in w WF s t P) as [Is _]. destruct (indices_exists w WF s Is) as [a [E F]].
  exists a. split; auto. destruct a as [n|b side k]; simpl in *.
  - rewrite nth_error_map. destruct (nth_error (nonblock_variables w) n); simpl in *; congruence.
  - rewrite nth_error_map. destruct (nth_error (blocks w) b) as [bl|] eqn:N; simpl in *; [|discriminate].
    rewrite nth_error_map. destruct side.
    + destruct (nth_error (b_out bl) k); simpl in *; congruence.
    + exfalso. destruct (nth_error (b_in bl) k) as [u|] eqn:K; simpl in F; [|discriminate]. inversion F; subst u.
      apply nth_error_In in N, K. exact (wf_source w WF s t bl P N K).
Qed.

Lemma target_address s t : In (s, t) (pipes w) -> exists a, variable_indices w t = Ok a /\
  target_of (map (rename_block f) (blocks w)) (map f (nonblock_variables w)) a = Ok (f t)
  /\ exists b k, a = APort b false k.
Proof.
  intros P. destruct (wf_target w WF s t P) as [bl [Ib It]].
  apply In_nth_error in Ib, It. destruct Ib as [b Nb]. destruct It as [k Nk].
  exists (APort b false k). split; [exact (indices_port w WF b bl false k t Nb Nk)|]. split; [|eauto].
  simpl. rewrite nth_error_map, Nb. simpl. rewrite nth_error_map, Nk. reflexivity.
Qed.

Lemma output_address o : output w = Some o -> exists b k, variable_indices w o = Ok (APort b true k)
  /\ deserialize_output (map (rename_block f) (blocks w)) (Some (APort b true k)) = Ok (Some (f o)).
Proof.
  intros O. destruct (wf_output w WF o O) as [bl [Ib Io]].
  apply In_nth_error in Ib, Io. destruct Ib as [b Nb]. destruct Io as [k Nk].
  exists b, k. split; [exact (indices_port w WF b bl true k o Nb Nk)|].
  simpl. rewrite nth_error_map, Nb. simpl. rewrite nth_error_map, Nk. reflexivity.
Qed.

Lemma output_roundtrip : exists a, serialized_output w = Ok a /\
  deserialize_output (map (rename_block f) (blocks w)) a = Ok (option_map f (output w)).
Proof.
  unfold serialized_output. destruct (output w) as [o|] eqn:O.
  - destruct (output_address o O) as [b [k [E D]]]. rewrite E. cbn [bind]. eexists. split; [reflexivity|]. exact D.
  - eexists. split; reflexivity.
Qed.

Lemma rebuild_ok : rebuild f w = Ok (relabel f w).
Proof.
  unfold rebuild.
  assert (S : exists ps, serialized_pipes w = Ok ps /\
     deserialize_pipes (map (rename_block f) (blocks w)) (map f (nonblock_variables w)) ps = Ok (pipes (relabel f w))).
  { unfold serialized_pipes, deserialize_pipes. simpl.
    assert (H : forall ps, incl ps (pipes w) -> exists qs,
       mapM (fun p => let* a := variable_indices w (fst p) in let* b := variable_indices w (snd p) in Ok (a, b)) ps = Ok qs
       /\ mapM (fun p => let* s := source_of (map (rename_block f) (blocks w)) (map f (nonblock_variables w)) (fst p) in
                 let* t := target_of (map (rename_block f) (blocks w)) (map f (nonblock_variables w)) (snd p) in Ok (s, t)) qs
          = Ok (map (fun p => (f (fst p), f (snd p))) ps)).
    { induction ps as [|[s t] ps IH]; intros I; [exists []; auto|].
      destruct IH as [qs [E1 E2]]; [intros x J; apply I; simpl; auto|].
      destruct (source_address s t) as [a [A1 A2]]; [apply I; simpl; auto|].
      destruct (target_address s t) as [b [B1 [B2 _]]]; [apply I; simpl; auto|].
      exists ((a, b) :: qs). cbn [mapM fst snd]. rewrite A1. cbn [bind]. rewrite B1. cbn [bind]. rewrite E1. cbn [bind].
      split; auto. cbn [fst snd]. rewrite A2. cbn [bind]. rewrite B2. cbn [bind]. rewrite E2. reflexivity. }
    apply H. apply incl_refl. }
  destruct S as [ps [E1 E2]]. rewrite E1. cbn [bind].
  destruct output_roundtrip as [a [O1 O2]]. rewrite O1. cbn [bind]. rewrite E2. cbn [bind]. rewrite O2. reflexivity.
Qed.

(** ** meaning *)
Lemma nth_relabel n : nth_error (blocks (relabel f w)) n = option_map (rename_block f) (nth_error (blocks w) n).
Proof. unfold relabel. simpl. apply nth_error_map. Qed.

Section Meaning.
Context {V : Type}.
Variable given given' : nat -> option V.
Variable evaluate : nat -> list V -> res (list V).
Hypothesis GIVEN : forall v, In v (variables w) -> given' (f v) = given v.

Lemma is_input_relabel v : is_input w v -> is_input (relabel f w) (f v).
Proof.
  intros [[b [Ib [Iv NT]]]|[Ip NB]].
  - left. exists (rename_block f b). split; [apply (in_map (rename_block f)); auto|]. simpl. split; [apply in_map; auto|].
    rewrite map_map. simpl. intros I. apply in_map_iff in I. destruct I as [[s t] [E I]]. simpl in E. apply NT.
    apply in_map_iff. exists (s, t). split; auto. simpl. apply SEP; auto.
    + apply (ends_in (s, t) I).
    + apply ports_incl. apply in_block_variables; eauto.
  - right. simpl. rewrite map_map. simpl. split.
    + apply in_map_iff in Ip. destruct Ip as [p [E I]]. apply in_map_iff. exists p. subst; auto.
    + rewrite block_variables_map. intros I. apply in_map_iff in I. destruct I as [u [E I]]. apply NB.
      assert (u = v); [|subst; auto]. apply SEP; auto.
      * apply ports_incl; auto.
      * apply in_map_iff in Ip. destruct Ip as [p [<- I']]. apply ends_in; auto.
Qed.

Lemma is_input_in_variables v : is_input w v -> In v (variables w).
Proof. intros I. apply (inputs_In w WF) in I. unfold inputs in I. apply filter_In in I. tauto. Qed.

Scheme hv_mut2 := Induction for has_value Sort Prop
with hvs_mut2 := Induction for have_values Sort Prop.

Lemma hv_relabel : forall v x, has_value w given evaluate v x -> has_value (relabel f w) given' evaluate (f v) x.
Proof.
  apply (hv_mut2 V w given evaluate (fun v x _ => has_value (relabel f w) given' evaluate (f v) x)
                (fun vs xs _ => have_values (relabel f w) given' evaluate (map f vs) xs)).
  - intros v x I E. apply hv_input; [apply is_input_relabel; auto|]. rewrite GIVEN; auto. apply is_input_in_variables; auto.
  - intros s t x P H IH. apply hv_pipe with (f s); auto. simpl. apply in_map_iff. exists (s, t). auto.
  - intros n b xs ys j v y N H IH Ev J Y. apply hv_block with n (rename_block f b) xs ys j; auto.
    + rewrite nth_relabel, N. reflexivity.
    + simpl. rewrite nth_error_map, J. reflexivity.
  - constructor.
  - intros v x vs xs H IH Hs IHs. simpl. constructor; auto.
Qed.

Lemma is_input_back u : is_input (relabel f w) u -> exists v, u = f v /\ is_input w v.
Proof.
  intros [[b' [Ib [Iv NT]]]|[Ip NB]].
  - simpl in Ib. apply in_map_iff in Ib. destruct Ib as [b [<- Ib]]. simpl in Iv. apply in_map_iff in Iv.
    destruct Iv as [v [<- Iv]]. exists v. split; auto. left. exists b. split; auto. split; auto.
    intros I. apply NT. simpl. rewrite map_map. simpl. apply in_map_iff in I. destruct I as [p [<- I]].
    apply in_map_iff. exists p; auto.
  - simpl in Ip. rewrite map_map in Ip. simpl in Ip. apply in_map_iff in Ip. destruct Ip as [p [<- Ip]].
    exists (fst p). split; auto. right. split; [apply in_map; auto|]. intros I. apply NB. rewrite block_variables_map.
    apply in_map; auto.
Qed.

Lemma hv_relabel_back : forall u x, has_value (relabel f w) given' evaluate u x ->
  exists v, u = f v /\ In v (variables w) /\ has_value w given evaluate v x.
Proof.
  apply (hv_mut2 V (relabel f w) given' evaluate
     (fun u x _ => exists v, u = f v /\ In v (variables w) /\ has_value w given evaluate v x)
     (fun us xs _ => exists vs, us = map f vs /\ (forall v, In v vs -> In v (variables w)) /\ have_values w given evaluate vs xs)).
  - intros u x I E. apply is_input_back in I. destruct I as [v [-> I]]. exists v. split; auto.
    assert (J := is_input_in_variables v I). split; auto. apply hv_input; auto. rewrite <- GIVEN; auto.
  - intros s' t' x P H [v [-> [J IH]]]. simpl in P. apply in_map_iff in P. destruct P as [[s t] [E P]].
    simpl in E. inversion E as [[E1 E2]]; subst. destruct (ends_in (s, t) P) as [J1 J2]. simpl in *.
    assert (s = v) by (apply SEP; auto). subst s. exists t. split; auto. split; auto. apply hv_pipe with v; auto.
  - intros n b' xs ys j u y N H [vs [Evs [Jvs IH]]] Ev J Y. rewrite nth_relabel in N.
    destruct (nth_error (blocks w) n) as [b|] eqn:Nb; simpl in N; [|discriminate]. inversion N; subst b'; clear N.
    simpl in *. rewrite nth_error_map in J. destruct (nth_error (b_out b) j) as [v|] eqn:Jv; simpl in J; [|discriminate].
    inversion J; subst u. exists v. split; auto. assert (Ib := nth_error_In _ _ Nb). split.
    + apply ports_incl. apply in_block_variables. exists b. split; auto. right. eapply nth_error_In; eauto.
    + apply hv_block with n b xs ys j; auto. assert (b_in b = vs); [|subst; auto].
      assert (Jb : forall v, In v (b_in b) -> In v (variables w)).
      { intros z Iz. apply ports_incl. apply in_block_variables. eauto. }
      clear - Evs Jvs Jb SEP. revert vs Evs Jvs. induction (b_in b) as [|a l IH]; intros [|c vs] E Jv; simpl in E; try discriminate; auto.
      inversion E. f_equal; [apply SEP; auto; [apply Jb|apply Jv]; simpl; auto|].
      apply IH; auto; intros; [apply Jb|apply Jv]; simpl; auto.
  - exists []. split; auto. split; [intros v []|constructor].
  - intros u x us xs H [v [-> [J IH]]] Hs [vs [-> [Jvs IHs]]]. exists (v :: vs). split; auto. split; [|constructor; auto].
    intros z [<-|I]; auto.
Qed.

Lemma hv_relabel_iff v x : In v (variables w) ->
  (has_value (relabel f w) given' evaluate (f v) x <-> has_value w given evaluate v x).
Proof.
  intros I. split; [|apply hv_relabel]. intros H. apply hv_relabel_back in H. destruct H as [u [E [J H]]].
  assert (u = v) by (apply SEP; auto). subst; auto.
Qed.
End Meaning.
End W.

(** ** deepcopy *)
Section C.
Variable w : workflow.
Hypothesis WF : well_formed w.
Variable f : nat -> nat.
Variable next : nat.

(** The copy of each variable: a port by [f], the n-th free variable by [next + n]. *)
Definition copy_of (v : nat) : nat :=
  match index_of Nat.eqb v (nonblock_variables w) with Some n => next + n | None => f v end.

Lemma copy_of_port v : In v (block_variables w) -> copy_of v = f v.
Proof.
  intros I. unfold copy_of. destruct (index_of Nat.eqb v (nonblock_variables w)) as [n|] eqn:E; auto.
  exfalso. apply (index_of_Some _ nat_eqb_iff) in E. destruct E as [E _]. apply nth_error_In in E.
  apply (nbv_In w WF) in E. tauto.
Qed.

Lemma rename_ports b : In b (blocks w) -> rename_block f b = rename_block copy_of b.
Proof.
  intros I. unfold rename_block. f_equal; apply map_ext_in; intros v J; symmetry; apply copy_of_port;
    apply in_block_variables; eauto.
Qed.

(** The sources that are free variables, in order of first use, are the non block variables. *)
Definition free_sources (ps : list (nat * nat)) (nb : list nat) : list nat :=
  fold_left (fun nb p => if mem (fst p) (block_variables w) then nb
                         else if mem (fst p) nb then nb else nb ++ [fst p]) ps nb.

Lemma free_cons p ps nb : free_sources (p :: ps) nb =
  free_sources ps (if mem (fst p) (block_variables w) then nb else if mem (fst p) nb then nb else nb ++ [fst p]).
Proof. reflexivity. Qed.

Lemma handle_free ps : incl ps (pipes w) -> forall nb,
  fold_left handle_pipe ps (block_variables w ++ nb, nb) = (block_variables w ++ free_sources ps nb, free_sources ps nb).
Proof.
  induction ps as [|[s t] ps IH]; intros I nb; [reflexivity|].
  assert (Pt : In (s, t) (pipes w)) by (apply I; simpl; auto).
  assert (It : mem t (block_variables w) = true).
  { apply mem_In. apply in_block_variables. destruct (wf_target w WF s t Pt) as [b [Ib J]]. eauto. }
  assert (T : forall l, mem t (block_variables w ++ l) = true).
  { intros l. apply mem_In. apply in_or_app. left. apply mem_In. auto. }
  cbn [fold_left free_sources fst]. unfold handle_pipe at 2. cbn [fst snd].
  assert (MS : mem s (block_variables w ++ nb) = mem s (block_variables w) || mem s nb).
  { destruct (mem s (block_variables w ++ nb)) eqn:M.
    - apply mem_In in M. apply in_app_or in M. symmetry. apply orb_true_iff. rewrite !mem_In. auto.
    - apply mem_false in M. symmetry. apply orb_false_iff. rewrite !mem_false. rewrite in_app_iff in M. tauto. }
  rewrite MS. unfold free_sources in IH. destruct (mem s (block_variables w)) eqn:Mb; cbn [orb fst snd].
  - rewrite T. apply IH. intros x J; apply I; simpl; auto.
  - destruct (mem s nb) eqn:Mn; cbn [fst snd].
    + rewrite T. apply IH. intros x J; apply I; simpl; auto.
    + rewrite <- app_assoc, T. apply IH. intros x J; apply I; simpl; auto.
Qed.

Lemma nbv_free : nonblock_variables w = free_sources (pipes w) [].
Proof.
  unfold nonblock_variables, handle_pipes.
  pose proof (handle_free (pipes w) (incl_refl _) []) as H. rewrite app_nil_r in H. rewrite H. reflexivity.
Qed.

Lemma free_prefix ps : forall nb, exists l, free_sources ps nb = nb ++ l.
Proof.
  induction ps as [|p ps IH]; intros nb; [exists []; symmetry; apply app_nil_r|].
  unfold free_sources in *. cbn [fold_left]. destruct (mem (fst p) (block_variables w)); [apply IH|].
  destruct (mem (fst p) nb); [apply IH|]. destruct (IH (nb ++ [fst p])) as [l E]. exists (fst p :: l).
  rewrite E, <- app_assoc. reflexivity.
Qed.

Variable unpiped : workflow.
Hypothesis UB : blocks unpiped = map (rename_block f) (blocks w).

Lemma port_copied b (side : bool) k bl v : nth_error (blocks w) b = Some bl ->
  nth_error (if side then b_out bl else b_in bl) k = Some v ->
  variable_from_index unpiped (APort b side k) = Ok (f v).
Proof.
  intros N K. simpl. rewrite UB, nth_error_map, N. simpl. destruct side; simpl; rewrite nth_error_map, K; reflexivity.
Qed.

(** The memo after the free variables [nb] have been met. *)
Definition memo_ok (s : list (nat * nat) * nat) (nb : list nat) : Prop :=
  snd s = next + length nb /\
  forall i u, find (fun e => Nat.eqb (fst e) i) (fst s) = Some (i, u) <->
    exists n v, nth_error nb n = Some v /\ nth_error (variables w) i = Some v /\ u = next + n.

Lemma find_key (l : list (nat * nat)) i e : find (fun e => Nat.eqb (fst e) i) l = Some e -> fst e = i.
Proof. intros H. apply find_some in H. destruct H as [_ H]. apply Nat.eqb_eq; auto. Qed.

Lemma index_unique i j v : nth_error (variables w) i = Some v -> nth_error (variables w) j = Some v -> i = j.
Proof.
  intros A B. pose proof (variables_nodup w WF) as ND. rewrite NoDup_nth_error in ND. apply ND; [|congruence].
  apply nth_error_Some; congruence.
Qed.

Lemma copy_pipes_ok ps : forall s nb, incl ps (pipes w) ->
  free_sources ps nb = nonblock_variables w -> NoDup nb -> memo_ok s nb ->
  copy_pipes w unpiped s ps = Ok (map (fun p => (copy_of (fst p), copy_of (snd p))) ps).
Proof.
  induction ps as [|[src tgt] ps IH]; intros s nb I FS ND [Sn Mm]; [reflexivity|].
  assert (P : In (src, tgt) (pipes w)) by (apply I; simpl; auto).
  assert (I' : incl ps (pipes w)) by (intros x J; apply I; simpl; auto).
  destruct (pipe_end_in w WF src tgt P) as [Is It].
  destruct (wf_target w WF src tgt P) as [bt [Ibt Jt]].
  assert (Ct : copy_of tgt = f tgt) by (apply copy_of_port; apply in_block_variables; eauto).
  apply In_nth_error in Ibt, Jt. destruct Ibt as [b Nb]. destruct Jt as [k Nk].
  assert (Et : variable_indices w tgt = Ok (APort b false k)) by exact (indices_port w WF b bt false k tgt Nb Nk).
  assert (Ft := port_copied b false k bt tgt Nb Nk).
  cbn [copy_pipes map fst snd]. unfold copy_pipe, is_variable_nbv. cbn [fst snd].
  rewrite free_cons in FS. cbn [fst] in FS.
  destruct (mem src (block_variables w)) eqn:Mb.
  - (* source is a block output *)
    apply mem_In in Mb. assert (Cs := copy_of_port src Mb). apply in_block_variables in Mb.
    destruct Mb as [bs [Ibs [J|J]]]; [exfalso; exact (wf_source w WF src tgt bs P Ibs J)|].
    apply In_nth_error in Ibs, J. destruct Ibs as [b' Nb']. destruct J as [k' Nk'].
    rewrite (indices_port w WF b' bs true k' src Nb' Nk'). cbn [bind].
    rewrite (port_copied b' true k' bs src Nb' Nk'). cbn [bind].
    rewrite Et. cbn [bind]. rewrite Ft. cbn [bind fst snd].
    rewrite (IH s nb I' FS ND (conj Sn Mm)). cbn [bind]. rewrite Cs, Ct. reflexivity.
  - (* source is a free variable *)
    apply mem_false in Mb.
    assert (Nbv : In src (nonblock_variables w)).
    { apply (nbv_In w WF). split; auto. apply in_map_iff. exists (src, tgt); auto. }
    destruct (In_nth_error _ _ Nbv) as [n0 Nn0]. rewrite (indices_nbv w WF n0 src Nn0). cbn [bind].
    destruct (In_nth_error _ _ Is) as [i Ni].
    assert (Ei : index_of Nat.eqb src (variables w) = Some i).
    { apply (index_of_nodup _ nat_eqb_iff); auto. apply (variables_nodup w WF). }
    rewrite Ei. cbn [of_option bind].
    assert (NDn : NoDup (nonblock_variables w)).
    { pose proof (variables_nodup w WF) as N. rewrite (variables_split w WF) in N. eapply NoDup_app_r; eauto. }
    assert (CP : forall n, nth_error (nonblock_variables w) n = Some src -> copy_of src = next + n).
    { intros n Nn. unfold copy_of. rewrite (index_of_nodup _ nat_eqb_iff _ _ _ NDn Nn). reflexivity. }
    destruct (mem src nb) eqn:Mn.
    + apply mem_In in Mn. destruct (In_nth_error _ _ Mn) as [n Nn].
      assert (Fd : find (fun e => Nat.eqb (fst e) i) (fst s) = Some (i, next + n)) by (apply Mm; eauto).
      rewrite Fd. cbn [snd]. rewrite Et. cbn [bind]. rewrite Ft. cbn [bind fst snd].
      rewrite (IH s nb I' FS ND (conj Sn Mm)). cbn [bind]. rewrite Ct.
      assert (Q : nth_error (nonblock_variables w) n = Some src).
      { rewrite <- FS. destruct (free_prefix ps nb) as [l ->]. rewrite nth_error_app1; auto.
        apply nth_error_Some; congruence. }
      rewrite (CP n Q). reflexivity.
    + apply mem_false in Mn.
      assert (Fd : find (fun e => Nat.eqb (fst e) i) (fst s) = None).
      { destruct (find _ (fst s)) as [[i' u]|] eqn:Fd; auto. exfalso. assert (Ki := find_key _ _ _ Fd). simpl in Ki. subst i'.
        apply Mm in Fd. destruct Fd as [n [v [Nn [Nv _]]]]. assert (v = src) by congruence. subst v.
        apply Mn. eapply nth_error_In; eauto. }
      rewrite Fd. cbn [snd]. rewrite Et. cbn [bind]. rewrite Ft. cbn [bind fst snd].
      assert (Q : nth_error (nonblock_variables w) (length nb) = Some src).
      { rewrite <- FS. destruct (free_prefix ps (nb ++ [src])) as [l ->]. rewrite <- app_assoc. simpl.
        rewrite nth_error_app2, Nat.sub_diag; auto. }
      rewrite (IH ((i, snd s) :: fst s, S (snd s)) (nb ++ [src]) I' FS).
      * cbn [bind]. rewrite Ct, (CP (length nb) Q), Sn. reflexivity.
      * apply NoDup_snoc; auto.
      * split; cbn [fst snd].
        -- rewrite app_length, Sn. simpl. lia.
        -- intros j u. cbn [find fst]. destruct (Nat.eqb_spec i j) as [<-|D].
           ++ split.
              ** intros E. inversion E; subst. exists (length nb), src. split.
                 { rewrite nth_error_app2, Nat.sub_diag; auto. } split; auto.
              ** intros [n [v [Nn [Nv ->]]]]. assert (v = src) by congruence. subst v.
                 destruct (Nat.lt_ge_cases n (length nb)) as [L|L].
                 { rewrite nth_error_app1 in Nn; auto. exfalso. apply Mn. eapply nth_error_In; eauto. }
                 assert (n = length nb).
                 { assert (n < length (nb ++ [src])) by (apply nth_error_Some; congruence).
                   rewrite app_length in H. simpl in H. lia. }
                 subst n. rewrite Sn. reflexivity.
           ++ rewrite Mm. split.
              ** intros [n [v [Nn [Nv Eu]]]]. exists n, v. split; auto. rewrite nth_error_app1; auto.
                 apply nth_error_Some; congruence.
              ** intros [n [v [Nn [Nv Eu]]]]. exists n, v. split; auto.
                 destruct (Nat.lt_ge_cases n (length nb)) as [L|L]; [rewrite nth_error_app1 in Nn; auto|].
                 exfalso. apply D. rewrite nth_error_app2 in Nn; auto.
                 destruct (n - length nb) as [|m]; simpl in Nn; [|destruct m; discriminate].
                 inversion Nn; subst v. eapply index_unique; eauto.
Qed.
End C.

Lemma deepcopy_ok w f next : well_formed w -> deepcopy f next w = Ok (relabel (copy_of w f next) w).
Proof.
  intros WF. unfold deepcopy. destruct (output_roundtrip w WF f) as [a [O1 O2]]. rewrite O1. cbn [bind]. rewrite O2. cbn [bind].
  match goal with |- context [copy_pipes w ?u ?s ?p] =>
    assert (E : copy_pipes w u s p = Ok (map (fun q => (copy_of w f next (fst q), copy_of w f next (snd q))) p)) end.
  { refine (copy_pipes_ok w WF f next (mkWf (map (rename_block f) (blocks w)) [] (option_map f (output w))) eq_refl
              (pipes w) _ [] (incl_refl _) _ (NoDup_nil _) _).
    - symmetry. exact (nbv_free w WF f next).
    - split; simpl; [lia|]. intros i u. split; [discriminate|]. intros [n [v [N _]]]. destruct n; discriminate. }
  rewrite E. cbn [bind]. unfold relabel. f_equal. f_equal.
  - apply map_ext_in. intros b I. exact (rename_ports w WF f next b I).
  - destruct (output w) as [o|] eqn:O; simpl; auto. f_equal. symmetry. apply (copy_of_port w WF).
    apply in_block_variables. destruct (wf_output w WF o O) as [b [Ib J]]. eauto.
Qed.

Lemma copy_of_separates w f next : well_formed w ->
  (forall u v, In u (block_variables w) -> In v (block_variables w) -> f u = f v -> u = v) ->
  (forall v, In v (block_variables w) -> f v < next) ->
  separates (copy_of w f next) w.
Proof.
  intros WF FI FB u v Iu Iv E.
  assert (NB : forall x n, index_of Nat.eqb x (nonblock_variables w) = Some n -> nth_error (nonblock_variables w) n = Some x).
  { intros x n H. apply (index_of_Some _ nat_eqb_iff) in H. tauto. }
  apply (in_variables w WF) in Iu, Iv. destruct Iu as [Iu|Iu]; destruct Iv as [Iv|Iv].
  - rewrite !(copy_of_port w WF) in E; auto.
  - exfalso. rewrite (copy_of_port w WF f next u Iu) in E. unfold copy_of in E.
    destruct (index_of Nat.eqb v _) as [n|] eqn:N.
    + assert (f u < next) by auto. lia.
    + apply (index_of_None _ nat_eqb_iff) in N. auto.
  - exfalso. rewrite (copy_of_port w WF f next v Iv) in E. unfold copy_of in E.
    destruct (index_of Nat.eqb u _) as [n|] eqn:N.
    + assert (f v < next) by auto. lia.
    + apply (index_of_None _ nat_eqb_iff) in N. auto.
  - unfold copy_of in E. destruct (index_of Nat.eqb u _) as [n|] eqn:N;
      [|apply (index_of_None _ nat_eqb_iff) in N; contradiction].
    destruct (index_of Nat.eqb v _) as [m|] eqn:M; [|apply (index_of_None _ nat_eqb_iff) in M; contradiction].
    apply NB in N, M. assert (n = m) by lia. congruence.
Qed.

Lemma copy_of_fresh w f next : well_formed w ->
  (forall v, In v (block_variables w) -> ~ In (f v) (variables w)) ->
  (forall v, In v (variables w) -> v < next) ->
  forall v, In v (variables w) -> ~ In (copy_of w f next v) (variables w).
Proof.
  intros WF FF FN v Iv J. unfold copy_of in J. destruct (index_of Nat.eqb v _) as [n|] eqn:N.
  - apply FN in J. lia.
  - apply (index_of_None _ nat_eqb_iff) in N. apply (in_variables w WF) in Iv. destruct Iv as [Iv|Iv]; [|contradiction].
    exact (FF v Iv J).
Qed.

(** ** steps *)
Lemma copied_variable w h : well_formed w -> separates h w -> forall v, In v (variables w) ->
  exists a, variable_indices w v = Ok a /\ variable_from_index (relabel h w) a = Ok (h v).
Proof.
  intros WF SEP v I. destruct (indices_exists w WF v I) as [a [E F]]. exists a. split; auto.
  destruct a as [n|b side k].
  - unfold variable_from_index in *. rewrite (nbv_map w WF h SEP), nth_error_map.
    destruct (nth_error (nonblock_variables w) n); simpl in *; congruence.
  - unfold variable_from_index in *. rewrite nth_relabel.
    destruct (nth_error (blocks w) b) as [bl|]; simpl in *; [|discriminate].
    destruct side; simpl; rewrite nth_error_map; [destruct (nth_error (b_out bl) k)|destruct (nth_error (b_in bl) k)];
      simpl in *; congruence.
Qed.

Lemma copy_step_ok w h ins groups : well_formed w -> separates h w -> incl ins (variables w) ->
  copy_step w (relabel h w) ins groups = Ok (map h ins, map h (filter (fun v => mem v groups) ins)).
Proof.
  intros WF SEP I. unfold copy_step. induction ins as [|v ins IH]; [reflexivity|].
  destruct (copied_variable w h WF SEP v (I v (or_introl eq_refl))) as [a [A B]].
  cbn [mapM]. rewrite A. cbn [bind]. rewrite B. cbn [bind].
  assert (IH' := IH (fun x J => I x (or_intror J))). clear IH.
  destruct (mapM (fun v => let* a := variable_indices w v in variable_from_index (relabel h w) a) ins); cbn [bind] in *; [|discriminate].
  inversion IH' as [[E1 E2]]. clear IH'. cbn [combine filter map fst snd].
  destruct (mem v groups); cbn [map snd]; rewrite E2; congruence.
Qed.

(** ** locks *)
Lemma copy_locks_ok {V L} (ins : list nat) (vars : nat -> variable V L) :
  (forall v, In v ins -> exists b, is_locked (vars v) = Ok b) ->
  forall ins' m, length ins' = length ins -> NoDup ins' ->
  exists m', copy_locks ins ins' vars m = Ok m' /\
    forall i v u, nth_error ins i = Some v -> nth_error ins' i = Some u ->
      (is_locked (vars v) = Ok true -> is_locked (m' u) = Ok true /\ v_default (m' u) = v_default (vars v))
      /\ (is_locked (vars v) = Ok false -> m' u = m u).
Proof.
  intros HL ins' m Len ND. unfold copy_locks.
  assert (H : forall k l, (forall i v, In (i, v) l -> nth_error ins i = Some v) -> NoDup (map fst l) ->
    forall m : nat -> variable V L, k = length l ->
    exists m', foldM (fun m iv =>
           let* l := is_locked (vars (snd iv)) in
           if (l : bool) then
             let* u := of_option IndexError (nth_error ins' (fst iv)) in
             let r := lock (v_default (vars (snd iv))) (m u) in
             match snd r with
             | None => Ok (upd m u (fst r))
             | Some e => Err e
             end
           else Ok m) l m = Ok m' /\
    (forall i v u, In (i, v) l -> nth_error ins' i = Some u ->
      (is_locked (vars v) = Ok true -> is_locked (m' u) = Ok true /\ v_default (m' u) = v_default (vars v))
      /\ (is_locked (vars v) = Ok false -> m' u = m u))
    /\ (forall i u, nth_error ins' i = Some u -> ~ In i (map fst l) -> m' u = m u)).
  { intros k l. revert k. induction l as [|[i v] l IH]; intros k Hl Nl m0 _.
    - exists m0. split; auto. split; [intros; contradiction|auto].
    - simpl in Nl. inversion Nl as [|? ? Ni Nl']; subst.
      assert (Nv : nth_error ins i = Some v) by (apply Hl; simpl; auto).
      destruct (HL v (nth_error_In _ _ Nv)) as [b Eb].
      assert (Lu : exists u, nth_error ins' i = Some u).
      { destruct (nth_error ins' i) eqn:E; eauto. apply nth_error_None in E.
        assert (i < length ins) by (apply nth_error_Some; congruence). lia. }
      destruct Lu as [u Nu].
      assert (UQ : forall j, nth_error ins' j = Some u -> j = i).
      { intros j Nj. rewrite NoDup_nth_error in ND. apply ND; [apply nth_error_Some; congruence|congruence]. }
      cbn [foldM fst snd]. rewrite Eb. cbn [bind]. destruct b.
      + rewrite Nu. cbn [of_option bind].
        unfold is_locked in Eb. destruct (v_lock (vars v)) eqn:K; [|discriminate].
        destruct (v_default (vars v)) as [d|] eqn:D; [|discriminate].
        cbn [lock fst snd bind].
        destruct (IH (length l) (fun j z J => Hl j z (or_intror J)) Nl'
                     (upd m0 u (mkVar (Some d) true (v_label (m0 u)))) eq_refl) as [m' [E [A B]]].
        exists m'. split; [exact E|]. split.
        * intros j z t [Q|J] Nt.
          -- inversion Q; subst j z. assert (t = u) by congruence. subst t. split.
             ++ intros _. rewrite (B i u Nu Ni). rewrite upd_same. simpl. auto.
             ++ intros F. exfalso. unfold is_locked in F. rewrite K, D in F. discriminate.
          -- destruct (A j z t J Nt) as [A1 A2]. split; auto. intros F. rewrite (A2 F).
             apply upd_other. intros ->. apply UQ in Nt. subst j. apply Ni. apply in_map_iff. exists (i, z); auto.
        * intros j t Nt Nj. simpl in Nj. rewrite (B j t Nt); [|tauto]. apply upd_other. intros ->.
          apply UQ in Nt. subst j. tauto.
      + destruct (IH (length l) (fun j z J => Hl j z (or_intror J)) Nl' m0 eq_refl) as [m' [E [A B]]].
        exists m'. split; [exact E|]. split.
        * intros j z t [Q|J] Nt.
          -- inversion Q; subst j z. assert (t = u) by congruence. subst t. split; [congruence|].
             intros _. apply (B i u Nu Ni).
          -- apply (A j z t J Nt).
        * intros j t Nt Nj. simpl in Nj. apply (B j t Nt). tauto. }
  destruct (H (length (enumerate ins)) (enumerate ins) (fun i v J => proj1 (enumerate_In ins i v) J)) with (m := m) as [m' [E [A _]]]; auto.
  { unfold enumerate. rewrite <- (seq_length (length ins) 0) at 1.
    assert (Q : forall (a b : list nat), length a = length b -> map fst (combine a b) = a).
    { induction a as [|x a IHa]; intros [|y b] L0; simpl in *; try discriminate; auto. f_equal. apply IHa; lia. }
    rewrite seq_length. rewrite Q; [apply seq_NoDup|apply seq_length]. }
  exists m'. split; [exact E|]. intros i v u Nv Nu. apply (A i v u); auto. apply enumerate_In; auto.
Qed.

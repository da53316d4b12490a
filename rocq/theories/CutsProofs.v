(** Proofs about parts of graphs. *)
From Coq Require Import List Bool Arith Lia.
From Verif Require Import Base CutsModel CutsSpec.
Import ListNotations.

Lemma memb_in x l : memb Nat.eqb x l = true <-> In x l.
Proof. unfold memb. rewrite existsb_exists. split; [intros (y & I & E); apply Nat.eqb_eq in E; subst; auto|intros I; exists x; rewrite Nat.eqb_refl; auto]. Qed.
Lemma memb_not x l : memb Nat.eqb x l = false <-> ~ In x l.
Proof. rewrite <- memb_in. destruct (memb Nat.eqb x l); split; congruence. Qed.
Lemma subgraph_restricts g keep : restricts g (fun v => In v keep) (subgraph g keep).
Proof.
  unfold subgraph. split; [intros v; cbn [nodes]; rewrite filter_In, memb_in; tauto|]. intros u v. unfold edge. cbn [edges]. rewrite filter_In, andb_true_iff, !memb_in. cbn. tauto.
Qed.
Lemma subgraph_simple g keep : simple g -> simple (subgraph g keep).
Proof.
  intros (N & E & W). split; [apply NoDup_filter; auto|]. split; [apply NoDup_filter; auto|]. intros u v H. destruct (subgraph_restricts g keep) as [RN RE].
  apply RE in H. destruct H as (H & Ku & Kv). destruct (W u v H). split; apply RN; auto.
Qed.
Lemma out_zero g v : out_degree g v = 0 <-> forall w, ~ edge g v w.
Proof.
  unfold out_degree. rewrite length_zero_iff_nil. split.
  - intros E w H. assert (I : In (v, w) (filter (fun e => fst e =? v) (edges g))) by (apply filter_In; split; [exact H|apply Nat.eqb_refl]). rewrite E in I. destruct I.
  - intros H. destruct (filter _ (edges g)) as [|[a b] l] eqn:F; [reflexivity|]. assert (I : In (a, b) ((a, b) :: l)) by (left; auto). rewrite <- F in I. apply filter_In in I. destruct I as [I E]. cbn in E. apply Nat.eqb_eq in E. subst a. destruct (H b I).
Qed.
Lemma in_one g v : NoDup (edges g) -> (in_degree g v = 1 <-> exists u, edge g u v /\ forall u', edge g u' v -> u' = u).
Proof.
  intros N. unfold in_degree. set (l := filter (fun e => snd e =? v) (edges g)).
  assert (HI : forall u, In (u, v) l <-> edge g u v). { intros u. unfold l. rewrite filter_In. cbn. rewrite Nat.eqb_refl. unfold edge. tauto. }
  assert (HV : forall e, In e l -> snd e = v). { intros e I. apply filter_In in I. apply Nat.eqb_eq. apply I. }
  assert (ND : NoDup l) by (apply NoDup_filter; auto). split.
  - intros L. destruct l as [|[a b] [|? ?]]; try discriminate. assert (b = v) by (apply (HV (a, b)); left; auto). subst b. exists a. split; [apply HI; left; auto|].
    intros u' H. apply HI in H. destruct H as [H|[]]. injection H as <-. reflexivity.
  - intros (u & H & U). apply HI in H. destruct l as [|e [|e' l']]; [destruct H|reflexivity|]. exfalso.
    assert (X : forall x, In x (e :: e' :: l') -> x = (u, v)). { intros [a b] I. assert (b = v) by (apply (HV (a, b) I)). subst b. apply HI in I. rewrite (U a I). reflexivity. }
    assert (e = e') by (rewrite (X e), (X e'); cbn; auto). subst e'. inversion ND as [|? ? NI]; subst. apply NI. left. reflexivity.
Qed.

Section Cut.
Variable G : graph.
Hypothesis SG : simple G.
(** What is left during the cuts: removed nodes are branches, and their successors are removed too. *)
Definition inv (g : graph) : Prop :=
  simple g /\ (forall v, In v (nodes g) -> In v (nodes G)) /\ (forall u v, edge g u v <-> edge G u v /\ In u (nodes g) /\ In v (nodes g)) /\
  (forall v, In v (nodes G) -> ~ In v (nodes g) -> branch G v) /\ (forall u v, edge G u v -> In v (nodes g) -> In u (nodes g)).

Lemma to_delete_spec g v : inv g -> (In v (nodes_to_delete g) <-> In v (nodes g) /\ (forall w, edge G v w -> ~ In w (nodes g)) /\ exists u, edge G u v /\ forall u', edge G u' v -> u' = u).
Proof.
  intros (S & I1 & I2 & I3 & I4). unfold nodes_to_delete. rewrite filter_In, andb_true_iff, !Nat.eqb_eq, out_zero, (in_one g v) by apply S. split.
  - intros (V & O & u & H & U). split; [auto|]. split; [intros w W K; apply (O w); apply I2; auto|]. exists u. split; [apply I2; auto|]. intros u' H'. apply U. apply I2. repeat split; auto. apply (I4 u' v); auto.
  - intros (V & O & u & H & U). split; [auto|]. split; [intros w W; apply I2 in W; destruct W as (W & _ & K); apply (O w W K)|]. exists u. split; [apply I2; repeat split; auto; apply (I4 u v); auto|].
    intros u' H'. apply U. apply I2 in H'. apply H'.
Qed.
Lemma inv_step g : inv g -> inv (subgraph g (filter (fun n => negb (memb Nat.eqb n (nodes_to_delete g))) (nodes g))).
Proof.
  intros I. assert (TD := fun v => to_delete_spec g v I). destruct I as (S & I1 & I2 & I3 & I4). set (keep := filter (fun n => negb (memb Nat.eqb n (nodes_to_delete g))) (nodes g)).
  assert (K : forall v, In v keep <-> In v (nodes g) /\ ~ In v (nodes_to_delete g)). { intros v. unfold keep. rewrite filter_In, negb_true_iff, memb_not. tauto. }
  destruct (subgraph_restricts g keep) as [RN RE]. assert (KN : forall v, In v (nodes (subgraph g keep)) <-> In v keep). { intros v. rewrite RN, K. tauto. }
  split; [apply subgraph_simple; auto|]. split; [intros v V; apply RN in V; apply I1; apply V|]. split; [|split].
  - intros u v. rewrite RE, I2, !KN, !K. tauto.
  - intros v V NV. rewrite KN, K in NV. destruct (in_dec Nat.eq_dec v (nodes g)) as [VG|VG]; [|auto]. destruct (in_dec Nat.eq_dec v (nodes_to_delete g)) as [D|D]; [|tauto].
    apply TD in D. destruct D as (_ & O & u & H & U). apply (branch_intro G u v H U). intros w W. apply I3; [destruct SG as (_ & _ & SW); apply (SW v w W)|apply O; auto].
  - intros u v E V. rewrite KN, K in *. destruct V as [V ND]. assert (UG := I4 u v E V). split; [auto|]. intros D. apply TD in D. destruct D as (_ & O & _). apply (O v E V).
Qed.
Lemma filter_less {A} (f : A -> bool) l x : In x l -> f x = false -> List.length (filter f l) < List.length l.
Proof.
  induction l as [|y l IH]; intros I F; [destruct I|]. assert (LE : List.length (filter f l) <= List.length l). { clear. induction l as [|z l IH]; cbn; [lia|]. destruct (f z); cbn; lia. }
  cbn [filter List.length]. destruct I as [->|I]; [rewrite F; lia|]. destruct (f y); cbn; specialize (IH I F); lia.
Qed.
Lemma cut_spec n : forall g, inv g -> List.length (nodes g) < n -> exists g', cut_tree_final_branches n g = Ok g' /\ inv g' /\ nodes_to_delete g' = [].
Proof.
  induction n as [|n IH]; intros g I L; [lia|]. cbn [cut_tree_final_branches]. destruct (nodes_to_delete g) as [|v l] eqn:D; cbn [List.length Nat.eqb].
  - exists g. auto.
  - rewrite <- D. apply IH; [apply inv_step; auto|]. assert (V : In v (nodes_to_delete g)) by (rewrite D; left; auto).
    assert (VG : In v (nodes g)) by (apply filter_In in V; apply V). cbn [subgraph nodes]. apply Nat.lt_le_trans with (List.length (nodes g)); [|lia].
    apply (filter_less _ _ v); [auto|]. apply memb_not. intros K. apply filter_In in K. destruct K as [_ K]. apply negb_true_iff in K. apply memb_not in K. auto.
Qed.
Lemma inv_start : inv G.
Proof. destruct SG as (N & E & W). split; [exact SG|]. split; [auto|]. split; [intros u v; split; [intros H; destruct (W u v H); auto|tauto]|]. split; [intros v V NV; tauto|]. intros u v H _. apply (W u v H). Qed.
Lemma cut_restricts : exists g', cut_tree_final_branches (S (List.length (nodes G))) G = Ok g' /\ restricts G (fun v => ~ branch G v) g'.
Proof.
  destruct (cut_spec (S (List.length (nodes G))) G inv_start ltac:(lia)) as (g' & E & I & D). exists g'. split; [exact E|].
  assert (TD := fun v => to_delete_spec g' v I). destruct I as (S & I1 & I2 & I3 & I4).
  assert (B : forall v, branch G v -> ~ In v (nodes g')).
  { induction 1 as [u v H U W IHW]. intros V. assert (In v (nodes_to_delete g')) as X by (apply TD; repeat split; eauto). rewrite D in X. destruct X. }
  assert (NB : forall v, In v (nodes g') -> ~ branch G v) by (intros v V X; apply (B v X V)).
  assert (K : forall v, In v (nodes G) -> ~ branch G v -> In v (nodes g')). { intros v V X. destruct (in_dec Nat.eq_dec v (nodes g')) as [Y|Y]; [auto|]. destruct (X (I3 v V Y)). }
  split; [intros v; split; [intros V; split; auto|intros [V X]; auto]|]. intros u v. rewrite I2. destruct SG as (_ & _ & SW). split.
  - intros (H & U & V). auto.
  - intros (H & U & V). destruct (SW u v H). auto.
Qed.
End Cut.

(** ** Depth first search *)
Lemma dfs_unfold g depth v st : dfs g depth v st = fold_left (fun st child =>
    if memb Nat.eqb child (fst st) then st else
    let st := (child :: fst st, snd st ++ [(v, child)]) in
    match depth with
    | S depth => if depth =? 0 then st else dfs g depth child st
    | 0 => st
    end) (successors g v) st.
Proof. destruct depth; reflexivity. Qed.
Lemma successors_in g v w : In w (successors g v) <-> edge g v w.
Proof.
  unfold successors, edge. rewrite in_map_iff. split.
  - intros ([a b] & E & I). cbn in E. subst b. apply filter_In in I. destruct I as [I F]. cbn in F. apply Nat.eqb_eq in F. subst a. exact I.
  - intros I. exists (v, w). split; [reflexivity|]. apply filter_In. split; [exact I|]. apply Nat.eqb_refl.
Qed.
(** [visited] is the source and the ends of the edges found; each edge found is the end of a short walk. *)
Definition seen (s : nat) (st : list nat * list (nat * nat)) : Prop := forall x, In x (fst st) <-> x = s \/ In x (map snd (snd st)).
Definition grows (st st' : list nat * list (nat * nat)) : Prop := exists l, snd st' = snd st ++ l.
Lemma grows_trans a b c : grows a b -> grows b c -> grows a c.
Proof. intros [l E] [m F]. exists (l ++ m). rewrite F, E, app_assoc. reflexivity. Qed.
Lemma walk_snoc g n u v w : walk g n u v -> edge g v w -> walk g (S n) u w.
Proof. intros W E. induction W; [econstructor; [eauto|constructor]|econstructor; eauto]. Qed.

Section Dfs.
Variable g : graph.
Variable s d : nat.
Definition short (st : list nat * list (nat * nat)) : Prop := forall a b, In (a, b) (snd st) -> edge g a b /\ exists n, n < max 1 d /\ walk g n s a.
Lemma dfs_ok depth : forall v n st, walk g n s v -> n + max 1 depth <= max 1 d -> seen s st -> short st ->
  seen s (dfs g depth v st) /\ short (dfs g depth v st) /\ grows st (dfs g depth v st) /\ forall w, edge g v w -> In w (fst (dfs g depth v st)).
Proof.
  induction depth as [depth IH] using lt_wf_ind. intros v n st W L. rewrite dfs_unfold.
  assert (HE : forall w, In w (successors g v) -> edge g v w) by (intros w I; apply successors_in; auto).
  assert (HE2 : forall w, edge g v w -> In w (successors g v)) by (intros w I; apply successors_in; auto).
  match goal with |- context [fold_left ?F (successors g v) _] => set (f := F) end.
  assert (KEY : forall l st, (forall w, In w l -> edge g v w) -> seen s st -> short st -> seen s (fold_left f l st) /\ short (fold_left f l st) /\ grows st (fold_left f l st) /\ forall w, In w l -> In w (fst (fold_left f l st))).
  { clear st HE HE2. induction l as [|c l IHl]; intros st HE S H; cbn [fold_left].
    - split; [auto|]. split; [auto|]. split; [exists []; rewrite app_nil_r; auto|]. intros w [].
    - assert (STEP : seen s (f st c) /\ short (f st c) /\ grows st (f st c) /\ In c (fst (f st c))).
      { unfold f. destruct (memb Nat.eqb c (fst st)) eqn:M; [apply memb_in in M; split; [auto|]; split; [auto|]; split; [exists []; rewrite app_nil_r; auto|auto]|]. cbn zeta.
        set (st1 := (c :: fst st, snd st ++ [(v, c)])). assert (Ec : edge g v c) by (apply HE; left; auto).
        assert (S1 : seen s st1). { intros x. unfold st1. cbn [fst snd]. rewrite map_app, in_app_iff. cbn. rewrite (S x). tauto. }
        assert (H1 : short st1). { intros a b I. unfold st1 in I. cbn [snd] in I. apply in_app_or in I. destruct I as [I|[I|[]]]; [auto|]. injection I as <- <-. split; [auto|]. exists n. split; [lia|auto]. }
        assert (G1 : grows st st1) by (exists [(v, c)]; reflexivity).
        assert (I1 : In c (fst st1)) by (left; auto). destruct depth as [|depth]; [auto|]. destruct (Nat.eqb_spec depth 0) as [Z|Z]; [auto|].
        destruct (IH depth ltac:(lia) c (Datatypes.S n) st1) as (S2 & H2 & G2 & _); [eapply walk_snoc; eauto|lia|auto|auto|]. split; [auto|]. split; [auto|]. split; [eapply grows_trans; eauto|].
        apply S2. right. destruct G2 as [m E]. rewrite E. unfold st1. cbn [snd]. rewrite !map_app, !in_app_iff. left. right. left. reflexivity. }
      destruct STEP as (S1 & H1 & G1 & I1). destruct (IHl (f st c)) as (S2 & H2 & G2 & I2); [intros w I; apply HE; right; auto|auto|auto|]. split; [auto|]. split; [auto|]. split; [eapply grows_trans; eauto|].
      intros w [<-|I]; [|auto]. apply S2. apply S1 in I1. destruct I1 as [E|I1]; [left; auto|right]. destruct G2 as [m E]. rewrite E, map_app, in_app_iff. auto. }
  intros S H. destruct (KEY (successors g v) st HE S H) as (A & B & C & D). split; [exact A|]. split; [exact B|]. split; [exact C|]. intros w Hw. apply D, HE2, Hw.
Qed.
End Dfs.

(** C73: parts of graphs that are cut or extracted. *)
From Coq Require Import List Bool Arith Lia.
From Verif Require Import Base CutsModel CutsSpec CutsProofs.
Import ListNotations.

(** What is left of a graph: the nodes and the edges from which a node that has not one predecessor, or a cycle, is reached. *)
Theorem C73_cut g : simple g -> exists g', cut_tree_final_branches (S (List.length (nodes g))) g = Ok g' /\ restricts g (fun v => ~ branch g v) g'.
Proof. apply cut_restricts. Qed.

(** Nothing is left to cut the second time. *)
Theorem C73_cut_again g g' : simple g -> cut_tree_final_branches (S (List.length (nodes g))) g = Ok g' -> cut_tree_final_branches (S (List.length (nodes g'))) g' = Ok g'.
Proof.
  intros S E. destruct (cut_spec g S (Datatypes.S (List.length (nodes g))) g (inv_start g S) ltac:(lia)) as (g2 & E2 & _ & D). rewrite E in E2. injection E2 as <-.
  cbn [cut_tree_final_branches]. rewrite D. reflexivity.
Qed.

(** Expected of the final branches of a tree, which would stop where the tree branches: something is left of the tree.
    The root is left alone. *)
Theorem C73_tree_refuted g root : simple g -> tree g root ->
  exists g', cut_tree_final_branches (S (List.length (nodes g))) g = Ok g' /\ (forall v, In v (nodes g') <-> v = root) /\ edges g' = [].
Proof.
  intros S (R & NR & F & height & H). destruct (C73_cut g S) as (g' & E & RN & RE). exists g'. split; [exact E|].
  assert (SW := proj2 (proj2 S)).
  assert (B : forall n v, height v < n -> In v (nodes g) -> v <> root -> branch g v).
  { induction n as [|n IH]; intros v L V NE; [lia|]. destruct (F v V NE) as (u & Eu & U). apply (branch_intro g u v Eu U). intros w W. apply IH; [specialize (H v w W); lia|apply (SW v w W)|].
    intros ->. apply (NR v W). }
  assert (RB : ~ branch g root). { intros X. inversion X as [u v Eu]; subst. apply (NR u Eu). }
  split.
  - intros v. rewrite RN. split; [|intros ->; auto]. intros [V X]. destruct (Nat.eq_dec v root) as [|NE]; [auto|]. destruct X. apply (B (Datatypes.S (height v)) v); auto.
  - destruct (edges g') as [|[u v] l] eqn:EE; [reflexivity|]. assert (Euv : edge g' u v) by (unfold edge; rewrite EE; left; auto). apply RE in Euv. destruct Euv as (Euv & _ & X). destruct X.
    apply (B (Datatypes.S (height v)) v); [lia|apply (SW u v Euv)|]. intros ->. apply (NR u Euv).
Qed.

Section Region.
Variable ancestors : graph -> nat -> list nat.
Hypothesis ANC : forall g v u, In u (ancestors g v) <-> u <> v /\ exists n, walk g n u v.

Local Lemma dfs_facts g v d : (forall a b, In (a, b) (dfs_edges g v d) -> edge g a b /\ exists n, n < max 1 d /\ walk g n v a) /\ forall w, edge g v w -> w = v \/ In w (map snd (dfs_edges g v d)).
Proof.
  destruct (dfs_ok g v d d v 0 ([v], [])) as (S & H & _ & A); [constructor|lia| | |].
  - intros x. cbn. split; [intros [<-|[]]; auto|intros [->|[]]; auto].
  - intros a b [].
  - split; [exact H|]. intros w W. apply S. auto.
Qed.
Local Lemma region_in g d l : forall r, region_nodes ancestors g l d = Ok r -> (forall v, In v l -> In v (nodes g)) /\
  forall x, In x r <-> exists v, In v l /\ (In x (map fst (dfs_edges g v d)) \/ In x (map snd (dfs_edges g v d)) \/ In x (ancestors g v)).
Proof.
  induction l as [|v l IH]; intros r E; cbn [region_nodes] in E.
  - injection E as <-. split; [intros v []|]. intros x. split; [intros []|intros (v & [] & _)].
  - destruct (memb Nat.eqb v (nodes g)) eqn:M; cbn [negb] in E; [|discriminate]. apply memb_in in M. destruct (region_nodes ancestors g l d) as [rest|e]; cbn [bind] in E; [|discriminate].
    injection E as <-. destruct (IH rest eq_refl) as [N R]. split; [intros w [<-|I]; auto|]. intros x. rewrite !in_app_iff, R. split.
    + intros [X|[X|[X|(w & W & X)]]]; [exists v; cbn; auto..|exists w; cbn; auto].
    + intros (w & [<-|W] & X); [tauto|]. right. right. right. exists w. auto.
Qed.

(** A region: what is extracted is given, or follows a given node at this distance, or comes before it at any distance;
    given nodes, what follows them directly and all that comes before them is there, with the edges in between. *)
Theorem C73_region g l d g' : simple g -> extract_region ancestors g l d = Ok g' ->
  (forall x, In x (nodes g') -> In x (nodes g) /\ exists v, In v l /\ ((exists n, n <= max 1 d /\ walk g n v x) \/ exists n, walk g n x v)) /\
  (forall v x, In v l -> x = v \/ edge g v x \/ (exists n, walk g n x v) -> In x (nodes g')) /\
  (forall u v, edge g' u v <-> edge g u v /\ In u (nodes g') /\ In v (nodes g')).
Proof.
  intros S E. unfold extract_region in E. destruct (region_nodes ancestors g l d) as [r|e] eqn:R; cbn [bind] in E; [|discriminate]. injection E as <-.
  destruct (region_in g d l r R) as [N I]. destruct (subgraph_restricts g (l ++ r)) as [RN RE]. assert (SW := proj2 (proj2 S)).
  assert (WN : forall n u v, walk g n u v -> In v (nodes g) -> In u (nodes g)). { intros n u v W V. inversion W as [|? ? w]; subst; [auto|]. apply (SW u w). auto. }
  split; [|split].
  - intros x X. apply RN in X. destruct X as [X K]. split; [auto|]. apply in_app_or in K. destruct K as [K|K]; [exists x; split; [auto|]; left; exists 0; split; [lia|constructor]|].
    apply I in K. destruct K as (v & V & K). exists v. split; [auto|]. destruct (dfs_facts g v d) as [F _]. destruct K as [K|[K|K]].
    + apply in_map_iff in K. destruct K as ([a b] & Ea & K). cbn in Ea. subst a. destruct (F x b K) as (_ & n & Ln & W). left. exists n. split; [lia|auto].
    + apply in_map_iff in K. destruct K as ([a b] & Eb & K). cbn in Eb. subst b. destruct (F a x K) as (Ee & n & Ln & W). left. exists (Datatypes.S n). split; [lia|]. apply (walk_snoc g n v a x W Ee).
    + apply ANC in K. right. apply K.
  - intros v x V H. apply RN. rewrite in_app_iff. destruct H as [->|[H|[n H]]].
    + auto.
    + split; [apply (SW v x H)|]. destruct (dfs_facts g v d) as [_ F]. destruct (F x H) as [->|K]; [auto|]. right. apply I. exists v. auto.
    + split; [apply (WN n x v H); auto|]. destruct (Nat.eq_dec x v) as [->|NE]; [auto|]. right. apply I. exists v. split; [auto|]. right. right. apply ANC. eauto.
  - intros u v. rewrite RE, !RN. split; [|tauto]. intros (H & U & V). destruct (SW u v H). auto.
Qed.
(** ValueError exactly when a given node is not in the graph. *)
Theorem C73_region_nodes g l d : ((exists v, In v l /\ ~ In v (nodes g)) -> extract_region ancestors g l d = Err ValueError) /\
  ((forall v, In v l -> In v (nodes g)) -> exists g', extract_region ancestors g l d = Ok g').
Proof.
  unfold extract_region. split.
  - intros (v & V & N). assert (H : region_nodes ancestors g l d = Err ValueError); [|rewrite H; reflexivity]. induction l as [|w l IH]; [destruct V|]. cbn [region_nodes].
    destruct (memb Nat.eqb w (nodes g)) eqn:M; cbn [negb]; [|reflexivity]. destruct V as [->|V]; [apply memb_in in M; tauto|]. rewrite (IH V). reflexivity.
  - intros H. assert (K : exists r, region_nodes ancestors g l d = Ok r); [|destruct K as [r ->]; eexists; reflexivity]. induction l as [|w l IH]; [eexists; reflexivity|]. cbn [region_nodes].
    rewrite (proj2 (memb_in w (nodes g)) (H w (or_introl eq_refl))). cbn [negb]. destruct IH as [r ->]; [intros; apply H; right; auto|]. eexists. reflexivity.
Qed.
End Region.

(** Expected of a region at a distance: what follows a node at this distance is there.  The search in depth may first
    come to a node by a longer way, and then does not go on from it. *)
Theorem C73_region_missed_refuted : exists g v x, simple g /\ walk g 2 v x /\
  forall ancestors g', (forall g v u, In u (ancestors g v) <-> u <> v /\ exists n, walk g n u v) -> extract_region ancestors g [v] 2 = Ok g' -> ~ In x (nodes g').
Proof.
  exists (Graph [0; 1; 2; 3] [(0, 1); (0, 2); (1, 2); (2, 3)]), 0, 3. split; [|split].
  - split; [|split]; cbn [nodes edges].
    + repeat constructor; cbn; intuition discriminate.
    + repeat constructor; cbn; intuition discriminate.
    + intros u v H. unfold edge in H. cbn in H. repeat (destruct H as [H|H]; [injection H as <- <-; cbn; tauto|]). destruct H.
  - apply walk_cons with 2; [unfold edge; cbn; tauto|]. apply walk_cons with 3; [unfold edge; cbn; tauto|]. constructor.
  - intros anc g' A E. cbn in E. injection E as <-. intros I. set (g := Graph [0; 1; 2; 3] [(0, 1); (0, 2); (1, 2); (2, 3)]) in *.
    destruct (subgraph_restricts g ([0] ++ ([0; 1] ++ [1; 2] ++ anc g 0 ++ []))) as [RN _]. apply RN in I. destruct I as [_ I].
    repeat (apply in_app_or in I; destruct I as [I|I]); cbn in I; try (intuition discriminate). apply A in I. destruct I as [_ (n & W)]. clear -W.
    inversion W as [|? ? w ? H W']; subst. unfold edge in H. cbn in H. intuition discriminate.
Qed.
(** Expected of a region at a distance: nothing in it is further.  What comes before is there at any distance. *)
Theorem C73_region_far_refuted ancestors g l d g' v x n : (forall g v u, In u (ancestors g v) <-> u <> v /\ exists n, walk g n u v) -> simple g ->
  extract_region ancestors g l d = Ok g' -> In v l -> walk g n x v -> In x (nodes g').
Proof. intros A S E V W. apply (proj1 (proj2 (C73_region ancestors A g l d g' S E)) v x V). eauto. Qed.

(** A cycle and what leads to it, a node with two predecessors and what leads to it, and branches that are cut. *)
Definition example_graph : graph := Graph [0; 1; 2; 3; 4; 5; 6; 7] [(0, 1); (0, 2); (1, 3); (2, 3); (3, 4); (4, 5); (6, 7); (7, 6); (7, 5)].
Example C73_example :
  cut_tree_final_branches 9 example_graph = Ok example_graph /\
  cut_tree_final_branches 9 (Graph [0; 1; 2; 3; 4; 5; 6] [(0, 1); (0, 2); (1, 3); (2, 3); (3, 4); (4, 5); (2, 6)]) = Ok (Graph [0; 1; 2; 3] [(0, 1); (0, 2); (1, 3); (2, 3)]) /\
  cut_tree_final_branches 9 (Graph [0; 1; 2; 3; 4] [(0, 1); (0, 2); (1, 3); (1, 4)]) = Ok (Graph [0] []).
Proof. repeat split. Qed.
Example C73_region_example :
  extract_region (fun _ _ => [0; 1; 2]) example_graph [3] 1 = Ok (Graph [0; 1; 2; 3; 4] [(0, 1); (0, 2); (1, 3); (2, 3); (3, 4)]) /\
  extract_region (fun _ _ => []) example_graph [8] 1 = Err ValueError.
Proof. repeat split. Qed.

Print Assumptions C73_cut.
Print Assumptions C73_cut_again.
Print Assumptions C73_tree_refuted.
Print Assumptions C73_region.
Print Assumptions C73_region_nodes.
Print Assumptions C73_region_missed_refuted.
Print Assumptions C73_region_far_refuted.

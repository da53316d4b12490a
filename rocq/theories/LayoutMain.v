(** Layouts of workflows. *)
From Coq Require Import Bool Arith ZArith Lia Relations Permutation Sorted List.
From Verif Require Import Base BaseProofs ExecModel ExecSpec ExecStruct Topo LayoutModel LayoutSpec LayoutProofs.
Import ListNotations.

Lemma route_incl E E' a b k : (forall x y, In (x, y) E -> In (x, y) E') -> route E a b k -> route E' a b k.
Proof. intros H. induction 1; econstructor; eauto. Qed.

(** ** Columns, for any longest path *)
Section Any.
Variable dlp : graph -> option (list node).
Variable ssp : graph -> node -> node -> list (list node).
Hypothesis D : gives_longest_path dlp.
Hypothesis S1 : lists_simple_paths ssp.

Lemma longest_end g p : longest_path g p -> exists e h, p = h ++ [e].
Proof.
  intros [C _]. destruct (exists_last (l := p)) as [h [e X]]; [intros ->; inversion C|]. eauto.
Qed.

Lemma columns_any g : proper g -> acyclic (g_edges g) -> g_nodes g <> [] ->
  exists p h e, dlp g = Some p /\ longest_path g p /\ p = h ++ [e]
  /\ ((exists cols, get_column_by_node dlp ssp g = Ok cols /\ found g p e /\ columns_of g p e cols
        /\ (forall a b ca cb, In (a, b) (g_edges g) -> In (a, ca) cols -> In (b, cb) cols -> (ca < cb)%Z)
        /\ (forall a n c b, cols = a ++ (n, c) :: b ->
              (0 <= c)%Z /\ (c = 0 \/ In (c - 1) (map snd a) \/ In c (map snd a))%Z))
      \/ (get_column_by_node dlp ssp g = Err KeyError /\ ~ found g p e)).
Proof.
  intros G A NE. destruct (D g G) as [D1 _]. destruct (D1 A) as [p [P1 [_ P2]]]. specialize (P2 NE).
  destruct (longest_end _ _ P2) as [e [h He]]. exists p, h, e. split; auto. split; auto. split; auto.
  assert (He' : exists h, p = h ++ [e]) by eauto.
  destruct (columns_result g G A ssp S1 p e P2 He' dlp P1) as [[cols [Q [K [H F]]]]|[Q F]]; [left|right; auto].
  exists cols. split; auto. split; auto. split; [eapply columns_fit; eauto|]. split.
  - intros a b ca cb I Ia Ib. eapply fit_edge; eauto. apply (proj2 G) in I; tauto.
  - intros. eapply graded; eauto.
Qed.

Lemma columns_cyclic g : proper g -> ~ acyclic (g_edges g) -> get_column_by_node dlp ssp g = Err unfeasible.
Proof. intros G A. unfold get_column_by_node. rewrite (proj2 (D g G) A). auto. Qed.

(** The lists of a graph: the i-th list has the nodes of column i. *)
Lemma graph_columns_any w g : proper g -> acyclic (g_edges g) -> g_nodes g <> [] -> NoDup (nodes w) -> incl (g_nodes g) (nodes w) ->
  exists p h e, dlp g = Some p /\ longest_path g p /\ p = h ++ [e]
  /\ ((exists cols ls, get_column_by_node dlp ssp g = Ok cols /\ columns_of g p e cols
        /\ (forall a b ca cb, In (a, b) (g_edges g) -> In (a, ca) cols -> In (b, cb) cols -> (ca < cb)%Z)
        /\ found g p e
        /\ graph_columns dlp ssp w g = Ok ls
        /\ (forall k l, nth_error ls k = Some l -> l <> [] /\ NoDup l /\
              forall i, In i l <-> exists n, nth_error (nodes w) i = Some n /\ In (n, Z.of_nat k) cols)
        /\ forall n c, In (n, c) cols -> (0 <= c < Z.of_nat (length ls))%Z)
      \/ (get_column_by_node dlp ssp g = Err KeyError /\ graph_columns dlp ssp w g = Err KeyError /\ ~ found g p e)).
Proof.
  intros G A NE NW IW. destruct (columns_any g G A NE) as [p [h [e [P1 [P2 [P3 [[cols [Q [F [C [R Gr]]]]]|[Q F]]]]]]]].
  2: { exists p, h, e. split; auto. split; auto. split; auto. right. split; auto. split; auto.
       unfold graph_columns. rewrite Q. auto. }
  exists p, h, e. split; auto. split; auto. split; auto. left.
  assert (IX : forall n c, In (n, c) cols -> exists i, index_of node_eqb n (nodes w) = Some i).
  { intros n c I. apply (in_map fst) in I. apply (Permutation_in _ (proj1 C)) in I. apply IW in I.
    destruct (index_of node_eqb n (nodes w)) as [i|] eqn:X; eauto.
    apply index_of_None in X; [tauto | intros; apply node_eqb_eq]. }
  set (pairs := map (fun nc : node * Z => (match index_of node_eqb (fst nc) (nodes w) with Some i => i | None => 0 end, snd nc)) cols).
  pose proof (gathers pairs [] [] ) as GG. simpl in GG.
  assert (G0 : grouped [] []) by (split; [auto|]; split; [simpl; tauto | intros ? ? []]).
  assert (G1 : forall a i c b, pairs = a ++ (i, c) :: b ->
     (0 <= c)%Z /\ (c = 0 \/ In (c - 1) (map snd a) \/ In c (map snd a))%Z).
  { intros a i c b X. unfold pairs in X. apply map_eq_app in X. destruct X as [a' [b' [X1 [X2 X3]]]].
    destruct b' as [|[n c'] b']; [discriminate|]. simpl in X3. injection X3 as X4 X5 X6. subst c'.
    replace (map snd a) with (map snd a'); [eapply Gr; eauto|]. rewrite <- X2, map_map. simpl. auto. }
  specialize (GG G0 G1). set (d := fold_left gather pairs []) in *.
  exists cols, (map snd d). split; auto. split; auto. split; auto. split; auto.
  assert (Ok' : graph_columns dlp ssp w g = Ok (map snd d)).
  { unfold graph_columns. rewrite Q. cbn [bind]. rewrite (gather_fold (fun n => index_of node_eqb n (nodes w)) cols IX). auto. }
  split; auto. destruct GG as [K1 [K2 K3]].
  assert (KN : forall k l, nth_error (map snd d) k = Some l -> In (Z.of_nat k, l) d).
  { intros k l X. rewrite nth_error_map in X. destruct (nth_error d k) as [[c l']|] eqn:Y; [|discriminate].
    simpl in X. inversion X; subst l'. assert (Z : nth_error (map fst d) k = Some c) by (rewrite nth_error_map, Y; auto).
    rewrite K1, nth_error_map in Z. assert (LT : k < length d) by (apply nth_error_Some; congruence).
    rewrite (nth_error_nth' _ 0) in Z by (rewrite seq_length; auto). rewrite seq_nth in Z by auto. simpl in Z.
    inversion Z; subst. apply nth_error_In in Y. auto. }
  assert (IN : forall i c, In (i, c) pairs <-> exists n, nth_error (nodes w) i = Some n /\ In (n, c) cols).
  { intros i c. unfold pairs. rewrite in_map_iff. split.
    - intros [[n c'] [X Y]]. simpl in X. destruct (IX n c' Y) as [j J]. rewrite J in X. inversion X; subst j c'.
      exists n. split; auto. apply index_of_Some in J; [tauto | intros; apply node_eqb_eq].
    - intros [n [X Y]]. exists (n, c). split; auto. simpl.
      rewrite (index_of_nodup node_eqb node_eqb_eq n (nodes w) i); auto. }
  split.
  - intros k l X. apply KN in X. pose proof (K3 _ _ X) as L. split; [|split].
    + apply (in_map fst) in X. apply K2 in X. simpl in X. apply in_map_iff in X. destruct X as [[i c] [Y1 Y2]]. simpl in Y1.
      rewrite L. intros Z. assert (I : In i (map fst (filter (fun x => (snd x =? Z.of_nat k)%Z) pairs))).
      { apply in_map_iff. exists (i, c). split; auto. apply filter_In. split; auto. simpl. apply Z.eqb_eq. auto. }
      rewrite Z in I. destruct I.
    + rewrite L. assert (NP : NoDup (map fst pairs)).
      { unfold pairs. rewrite map_map. simpl.
        assert (NC : NoDup (map fst cols)) by (eapply Permutation_NoDup; [symmetry; apply C | apply G]).
        clear - NC IX NW. induction cols as [|[n c] cols IH]; simpl; [constructor|]. simpl in NC. inversion NC as [|x y NI NC']; subst.
        constructor.
        - intros J. apply NI. apply in_map_iff in J. destruct J as [[m c'] [J1 J2]]. simpl in J1.
          destruct (IX n c) as [i I]; [left; auto|]. destruct (IX m c') as [j J]; [right; auto|]. rewrite I, J in J1. subst j.
          apply index_of_Some in I, J; try (intros; apply node_eqb_eq). destruct I as [I _], J as [J _]. rewrite I in J. inversion J; subst.
          apply (in_map fst) in J2. auto.
        - apply IH; auto. intros m k J. apply (IX m k). right; auto. }
      clear - NP. induction pairs as [|[i c] ps IH]; simpl; [constructor|]. simpl in NP. inversion NP as [|x y NI NP']; subst.
      destruct (c =? Z.of_nat k)%Z; simpl; auto. constructor; auto. intros J. apply NI.
      apply in_map_iff in J. destruct J as [z [J1 J2]]. apply filter_In in J2. rewrite <- J1. apply in_map. tauto.
    + intros i. rewrite <- IN, L, in_map_iff. split.
      * intros [[j c] [Y1 Y2]]. simpl in Y1. subst j. apply filter_In in Y2. destruct Y2 as [Y2 Y3]. simpl in Y3.
        apply Z.eqb_eq in Y3. subst. auto.
      * intros Y. exists (i, Z.of_nat k). split; auto. apply filter_In. split; auto. simpl. apply Z.eqb_refl.
  - intros n c I. rewrite map_length. destruct (IX n c I) as [i X].
    assert (J : In c (map fst d)).
    { apply K2. apply in_map_iff. exists (i, c). split; auto. apply IN. exists n. split; auto.
      apply index_of_Some in X; [tauto | intros; apply node_eqb_eq]. }
    rewrite K1 in J. apply in_map_iff in J. destruct J as [m [M1 M2]]. apply in_seq in M2. lia.
Qed.
End Any.

(** ** The graph of a workflow *)
Section Workflow.
Variable w : workflow.
Hypothesis WF : well_formed w.

Lemma nodes_nodup : NoDup (nodes w).
Proof.
  unfold nodes. apply nodup_app.
  - apply FinFun.Injective_map_NoDup; [intros x y X; inversion X; auto | apply seq_NoDup].
  - apply FinFun.Injective_map_NoDup; [intros x y X; inversion X; auto |].
    pose proof (variables_nodup w WF) as ND. rewrite (variables_split w WF) in ND. eapply NoDup_app_r; eauto.
  - intros n I J. apply in_map_iff in I, J. destruct I as [v [<- _]], J as [i [X _]]. discriminate.
Qed.

Lemma in_nodes_block i : In (NBlock i) (nodes w) <-> i < length (blocks w).
Proof.
  unfold nodes. rewrite in_app_iff, !in_map_iff. split.
  - intros [[j [X I]]|[v [X _]]]; [|discriminate]. inversion X; subst. apply in_seq in I. lia.
  - intros I. left. exists i. split; auto. apply in_seq. lia.
Qed.
Lemma in_nodes_var v : In (NVar v) (nodes w) <-> In v (nonblock_variables w).
Proof.
  unfold nodes. rewrite in_app_iff, !in_map_iff. split.
  - intros [[j [X I]]|[u [X I]]]; [discriminate|]. inversion X; subst. auto.
  - intros I. right. exists v. auto.
Qed.

Lemma holds_block i v : holds w (NBlock i) v <-> block_from_variable w v = Ok i.
Proof.
  unfold block_from_variable. split.
  - intros [b [N I]].
    assert (X : exists o k, nth_error (if o : bool then b_out b else b_in b) k = Some v).
    { destruct I as [I|I]; apply In_nth_error in I; destruct I as [k K]; [exists false, k | exists true, k]; auto. }
    destruct X as [o [k X]]. rewrite (indices_port w WF i b o k v N X). auto.
  - unfold variable_indices. destruct (find_port 0 (blocks w) v) as [a|] eqn:F.
    + apply find_port_some in F. destruct F as [n [b [o [k [-> [N M]]]]]]. cbn [bind]. intros X. inversion X. subst i.
      exists b. rewrite Nat.add_0_l in *. split; auto. apply nth_error_In in M. destruct o; auto.
    + destruct (index_of Nat.eqb (get_upstream_nbv w v) (nonblock_variables w)); simpl; discriminate.
Qed.

Lemma block_of v : In v (block_variables w) -> exists i, block_from_variable w v = Ok i /\ i < length (blocks w).
Proof.
  intros I. apply in_block_variables in I. destruct I as [b [J K]]. apply In_nth_error in J. destruct J as [i J].
  exists i. split; [apply holds_block; exists b; auto|]. apply nth_error_Some. congruence.
Qed.

Lemma layout_graph_ok : exists g, layout_graph w = Ok g /\ g_nodes g = nodes w /\ proper g
  /\ forall a b, In (a, b) (g_edges g) <-> exists s t, In (s, t) (pipes w) /\ holds w a s /\ holds w b t.
Proof.
  assert (ED : forall p, In p (pipes w) -> exists a b, layout_edge w p = Ok (a, b) /\ holds w a (fst p) /\ holds w b (snd p)
       /\ In a (nodes w) /\ In b (nodes w)).
  { intros [s t] I. cbn [fst snd].
    assert (T : In t (block_variables w)).
    { destruct (wf_target w WF _ _ I) as [b [J K]]. apply in_block_variables. exists b. auto. }
    destruct (block_of _ T) as [j [J1 J2]].
    unfold layout_edge. cbn [fst snd]. rewrite J1. cbn [bind].
    destruct (mem s (nonblock_variables w)) eqn:M.
    - exists (NVar s), (NBlock j). cbn [bind]. repeat split; auto.
      + apply mem_In in M. apply (nbv_In w WF) in M. destruct M as [_ M].
        intros X. apply M. apply in_block_variables. exists b; auto.
      + apply mem_In in M. apply (nbv_In w WF) in M. destruct M as [_ M].
        intros X. apply M. apply in_block_variables. exists b; auto.
      + apply holds_block; auto.
      + apply in_nodes_var. apply mem_In; auto.
      + apply in_nodes_block; auto.
    - assert (Sb : In s (block_variables w)).
      { destruct (in_dec Nat.eq_dec s (block_variables w)) as [X|X]; auto. exfalso.
        apply mem_false in M. apply M. apply (nbv_In w WF). split; auto. apply (in_map fst) in I; auto. }
      destruct (block_of _ Sb) as [i [I1 I2]]. rewrite I1. cbn [bind]. exists (NBlock i), (NBlock j).
      repeat split; auto; try (apply holds_block; auto); apply in_nodes_block; auto. }
  destruct (mapM (layout_edge w) (pipes w)) as [E|x] eqn:Q.
  2: { exfalso. revert Q ED. generalize (pipes w). induction l as [|p l IH]; simpl; [discriminate|]. intros Q ED.
       destruct (ED p) as [a [b [X _]]]; auto. rewrite X in Q. cbn [bind] in Q.
       destruct (mapM (layout_edge w) l); [discriminate|]. cbn [bind] in Q. apply IH; auto. }
  exists (mkGraph (nodes w) E). unfold layout_graph. rewrite Q. cbn [bind]. split; auto. split; auto.
  assert (IE : forall a b, In (a, b) E <-> exists p, In p (pipes w) /\ layout_edge w p = Ok (a, b)).
  { intros a b. revert E Q. generalize (pipes w) as l. induction l as [|p l IH]; simpl; intros E Q.
    - inversion Q. split; [intros [] | intros [p [[] _]]].
    - destruct (layout_edge w p) as [x|] eqn:X; [|discriminate]. cbn [bind] in Q.
      destruct (mapM (layout_edge w) l) as [E'|] eqn:Y; [|discriminate]. cbn [bind] in Q. inversion Q; subst E.
      simpl. rewrite (IH E' eq_refl). split.
      + intros [->|[p' [P1 P2]]]; [exists p; auto | exists p'; auto].
      + intros [p' [[->|P1] P2]]; [left; congruence | right; exists p'; auto]. }
  assert (FI : forall a b v, holds w a v -> holds w b v -> a = b).
  { intros [i|u] [j|u'] v; simpl.
    - intros X Y. apply holds_block in X, Y. congruence.
    - intros [b [X Y]] [_ Z]. apply nth_error_In in X. destruct (Z _ X). tauto.
    - intros [_ Z] [b [X Y]]. apply nth_error_In in X. destruct (Z _ X). tauto.
    - intros [-> _] [-> _]. auto. }
  split.
  - split; [apply nodes_nodup|]. simpl. intros a b I. apply IE in I. destruct I as [p [P1 P2]].
    destruct (ED p P1) as [a' [b' [X [_ [_ Y]]]]]. rewrite X in P2. inversion P2; subst. auto.
  - simpl. intros a b. rewrite IE. split.
    + intros [[s t] [P1 P2]]. destruct (ED _ P1) as [a' [b' [X [Y [Z _]]]]]. rewrite X in P2. inversion P2; subst. exists s, t. auto.
    + intros [s [t [I [X Y]]]]. exists (s, t). split; auto. destruct (ED _ I) as [a' [b' [Q' [X' [Y' _]]]]].
      rewrite (FI _ _ _ X X'), (FI _ _ _ Y Y'). auto.
Qed.
End Workflow.

(** ** Components *)
Section Parts.
Variable g : graph.
Hypothesis G : proper g.
Variable c : list node.
Hypothesis C0 : c <> [].
Hypothesis C1 : forall a b, In a c -> In b (g_nodes g) -> (In b c <-> joined (g_edges g) a b).
Hypothesis C2 : incl c (g_nodes g).
Hypothesis C3 : NoDup c.
Variable l : list node.
Hypothesis L : Permutation l c.

Lemma sub_edge a b : In (a, b) (g_edges (subgraph g l)) <-> In (a, b) (g_edges g) /\ In a c /\ In b c.
Proof.
  simpl. rewrite filter_In, andb_true_iff, !node_memb. simpl.
  assert (X : forall x, In x l <-> In x c) by (intros; split; apply Permutation_in; [|symmetry]; auto).
  rewrite !X. tauto.
Qed.
Lemma sub_part : part g c (subgraph g l).
Proof. split; [exact L | intros; apply sub_edge]. Qed.
Lemma sub_proper : proper (subgraph g l).
Proof.
  split.
  - simpl. eapply Permutation_NoDup; [symmetry; exact L | auto].
  - intros a b I. apply sub_edge in I. simpl. destruct I as [_ [I J]].
    split; eapply Permutation_in; try (symmetry; exact L); auto.
Qed.
Lemma sub_nonempty : g_nodes (subgraph g l) <> [].
Proof. simpl. intros X. rewrite X in L. apply C0. apply Permutation_nil. auto. Qed.
Lemma closed_edge a b : In (a, b) (g_edges g) -> In a c -> In b c.
Proof. intros I J. apply (C1 a b J); [apply (proj2 G) in I; tauto | apply rst_step; auto]. Qed.
Lemma closed_edge' a b : In (a, b) (g_edges g) -> In b c -> In a c.
Proof. intros I J. apply (C1 b a J); [apply (proj2 G) in I; tauto | apply rst_sym, rst_step; auto]. Qed.
Lemma sub_route a b k : In a c -> (route (g_edges (subgraph g l)) a b k <-> route (g_edges g) a b k).
Proof.
  intros I. split; [apply route_incl; intros x y X; apply sub_edge in X; tauto|].
  intros R. revert I. induction R as [|a b d k J R IH]; intros I; [constructor|].
  pose proof (closed_edge _ _ J I) as Ib. econstructor; [apply sub_edge; eauto | auto].
Qed.
Lemma sub_acyclic : acyclic (g_edges g) -> acyclic (g_edges (subgraph g l)).
Proof. intros A a k R. apply (A a k). eapply route_incl; [|exact R]. intros x y X. apply sub_edge in X; tauto. Qed.
End Parts.

Section Layout.
Variable dlp : graph -> option (list node).
Variable ssp : graph -> node -> node -> list (list node).
Variable cc : graph -> list (list node).
Variable arrange : list node -> list node.
Hypothesis D : gives_longest_path dlp.
Hypothesis S1 : lists_simple_paths ssp.
Hypothesis CC : lists_components cc.
Hypothesis AR : forall c, Permutation (arrange c) c.
Variable w : workflow.
Hypothesis WF : well_formed w.

Lemma component_facts g c : proper g -> In c (cc g) ->
  c <> [] /\ (forall a b, In a c -> In b (g_nodes g) -> (In b c <-> joined (g_edges g) a b)) /\ incl c (g_nodes g) /\ NoDup c.
Proof.
  intros G I. destruct (CC g G) as [X Y]. destruct (Y c I) as [Z W]. split; auto. split; auto. split.
  - intros a A. apply (Permutation_in _ X). apply in_concat. eauto.
  - assert (N : NoDup (concat (cc g))) by (eapply Permutation_NoDup; [symmetry; exact X | apply G]).
    apply in_split in I. destruct I as [l1 [l2 I]]. rewrite I, concat_app in N. simpl in N.
    apply NoDup_app_r in N. apply NoDup_app_l in N. auto.
Qed.

(** One component. *)
Lemma component_layout g c : layout_graph w = Ok g -> proper g -> g_nodes g = nodes w -> acyclic (g_edges g) -> In c (cc g) ->
  let s := subgraph g (arrange c) in
  exists p h e, dlp s = Some p /\ longest_path s p /\ p = h ++ [e]
  /\ ((exists cols ls, graph_columns dlp ssp w s = Ok ls /\ found s p e
        /\ Permutation (map fst cols) c /\ NoDup (map fst cols)
        /\ (forall a b ca cb, In (a, b) (g_edges g) -> In (a, ca) cols -> In (b, cb) cols -> (ca < cb)%Z)
        /\ (forall k l, nth_error ls k = Some l -> l <> [] /\ NoDup l /\
              forall i, In i l <-> exists n, nth_error (nodes w) i = Some n /\ In (n, Z.of_nat k) cols)
        /\ forall n k, In (n, k) cols -> (0 <= k < Z.of_nat (length ls))%Z)
      \/ (graph_columns dlp ssp w s = Err KeyError /\ ~ found s p e)).
Proof.
  intros LG G NW A I s. destruct (component_facts g c G I) as [X [Y [Z W]]].
  pose proof (sub_proper g c W (arrange c) (AR c)) as SP.
  pose proof (sub_acyclic g c (arrange c) (AR c) A) as SA.
  pose proof (sub_nonempty g c X (arrange c) (AR c)) as SN.
  assert (SI : incl (g_nodes s) (nodes w)).
  { intros n J. simpl in J. rewrite <- NW. apply Z. eapply Permutation_in; [apply AR | auto]. }
  destruct (graph_columns_any dlp ssp D S1 w s SP SA SN (nodes_nodup w WF) SI)
    as [p [h [e [P1 [P2 [P3 [[cols [ls [Q [R [T [F [U [V B]]]]]]]]|[Q [U F]]]]]]]]].
  - exists p, h, e. split; auto. split; auto. split; auto. left. exists cols, ls. split; auto. split; auto.
    assert (PC : Permutation (map fst cols) c).
    { etransitivity; [apply (proj1 R)|]. simpl. apply AR. }
    split; auto. split; [eapply Permutation_NoDup; [symmetry; exact PC | auto]|].
    split; auto. intros a b ca cb J Ja Jb. apply (T a b); auto.
    assert (Ia : In a c) by (apply (Permutation_in _ PC); apply (in_map fst) in Ja; auto).
    assert (Ib : In b c) by (apply (Permutation_in _ PC); apply (in_map fst) in Jb; auto).
    apply (sub_edge g c (arrange c) (AR c)). auto.
  - exists p, h, e. split; auto.
Qed.

Lemma acyclic_iff s : proper s -> (acyclic (g_edges s) <-> exists p, dlp s = Some p).
Proof.
  intros G. destruct (D s G) as [D1 D2]. split.
  - intros A. destruct (D1 A) as [p [P _]]. eauto.
  - intros [p P] a k R. rewrite D2 in P; [discriminate|]. intros A. exact (A _ _ R).
Qed.

Lemma component_cyclic g c : proper g -> In c (cc g) -> ~ acyclic (g_edges (subgraph g (arrange c))) ->
  graph_columns dlp ssp w (subgraph g (arrange c)) = Err unfeasible.
Proof.
  intros G I A. destruct (component_facts g c G I) as [X [Y [Z W]]].
  unfold graph_columns. rewrite (columns_cyclic dlp ssp D); auto. apply (sub_proper g c W _ (AR c)).
Qed.

Lemma component_cases g c : layout_graph w = Ok g -> proper g -> g_nodes g = nodes w -> In c (cc g) ->
  let s := subgraph g (arrange c) in
  (acyclic (g_edges s) /\ exists ls, graph_columns dlp ssp w s = Ok ls)
  \/ graph_columns dlp ssp w s = Err KeyError \/ (~ acyclic (g_edges s) /\ graph_columns dlp ssp w s = Err unfeasible).
Proof.
  intros LG G NW I s. destruct (component_facts g c G I) as [X [Y [Z W]]].
  pose proof (sub_proper g c W (arrange c) (AR c)) as SP.
  destruct (dlp s) as [p|] eqn:Q.
  - assert (SA : acyclic (g_edges s)) by (apply (acyclic_iff s SP); eauto).
    assert (SI : incl (g_nodes s) (nodes w)).
    { intros n J. simpl in J. rewrite <- NW. apply Z. eapply Permutation_in; [apply AR | auto]. }
    destruct (graph_columns_any dlp ssp D S1 w s SP SA (sub_nonempty g c X _ (AR c)) (nodes_nodup w WF) SI)
      as [p' [h [e [P1 [P2 [P3 [[cols [ls H]]|[_ [U F]]]]]]]]]; auto.
    left. split; auto. exists ls. apply H.
  - right. right. assert (SA : ~ acyclic (g_edges s)).
    { intros A. apply (acyclic_iff s SP) in A. destruct A as [p P]. congruence. }
    split; auto. apply component_cyclic; auto.
Qed.

Lemma in_component g n : proper g -> In n (g_nodes g) -> exists c, In c (cc g) /\ In n c.
Proof.
  intros G I. destruct (CC g G) as [X _]. apply (Permutation_in _ (Permutation_sym X)) in I.
  apply in_concat in I. auto.
Qed.

Lemma layout_acyclic g ls : layout_graph w = Ok g -> proper g -> g_nodes g = nodes w ->
  layout dlp ssp cc arrange w = Ok ls -> acyclic (g_edges g).
Proof.
  intros LG G NW Q a k R. unfold layout in Q. rewrite LG in Q. cbn [bind] in Q.
  assert (I : In a (g_nodes g)) by (inversion R; subst; match goal with H : In (a, _) _ |- _ => apply (proj2 G) in H end; tauto).
  destruct (in_component g a G I) as [c [Cc Ca]].
  destruct (component_facts g c G Cc) as [X [Y [Z W]]].
  apply mapM_ok_inv in Q. assert (E : exists l, graph_columns dlp ssp w (subgraph g (arrange c)) = Ok l).
  { clear - Q Cc. induction Q; [destruct Cc | destruct Cc as [->|Cc]; eauto]. }
  destruct E as [l E]. rewrite (component_cyclic g c G Cc) in E; [discriminate|].
  intros A. apply (A a k). apply (sub_route g G c Y (arrange c) (AR c)); auto.
Qed.

Lemma layout_errors g e : layout_graph w = Ok g -> proper g -> g_nodes g = nodes w ->
  layout dlp ssp cc arrange w = Err e -> e = KeyError \/ (e = unfeasible /\ ~ acyclic (g_edges g)).
Proof.
  intros LG G NW Q. unfold layout in Q. rewrite LG in Q. cbn [bind] in Q.
  assert (X : exists c, In c (cc g) /\ graph_columns dlp ssp w (subgraph g (arrange c)) = Err e).
  { revert Q. generalize (cc g). induction l as [|c l IH]; simpl; [discriminate|].
    destruct (graph_columns dlp ssp w (subgraph g (arrange c))) eqn:C; cbn [bind].
    - destruct (mapM (fun c => graph_columns dlp ssp w (subgraph g (arrange c))) l); cbn [bind]; [discriminate|].
      intros H. destruct (IH H) as [c' [X Y]]. exists c'. auto.
    - intros H. inversion H; subst. exists c. auto. }
  destruct X as [c [I X]]. destruct (component_cases g c LG G NW I) as [[_ [l Y]]|[Y|[Z Y]]]; rewrite Y in X; inversion X; auto.
  right. split; auto. intros A. apply Z. apply (sub_acyclic g c _ (AR c)). auto.
Qed.

Lemma layout_iff g : layout_graph w = Ok g -> proper g -> g_nodes g = nodes w -> acyclic (g_edges g) ->
  ((exists ls, layout dlp ssp cc arrange w = Ok ls) <->
   forall c, In c (cc g) -> exists p h e, dlp (subgraph g (arrange c)) = Some p /\ p = h ++ [e] /\ found (subgraph g (arrange c)) p e).
Proof.
  intros LG G NW A. unfold layout. rewrite LG. cbn [bind]. split.
  - intros [ls Q] c I. apply mapM_ok_inv in Q.
    assert (E : exists l, graph_columns dlp ssp w (subgraph g (arrange c)) = Ok l).
    { clear - Q I. induction Q; [destruct I | destruct I as [->|I]; eauto]. }
    destruct E as [l E]. destruct (component_layout g c LG G NW A I) as [p [h [e [P1 [P2 [P3 [[cols [ls' [Q' [F _]]]]|[Q' F]]]]]]]]; [|congruence].
    exists p, h, e. auto.
  - intros H. assert (E : forall c, In c (cc g) -> exists l, graph_columns dlp ssp w (subgraph g (arrange c)) = Ok l).
    { intros c I. destruct (H c I) as [p [h [e [P1 [P3 F]]]]].
      destruct (component_layout g c LG G NW A I) as [p' [h' [e' [P1' [P2' [P3' [[cols [ls' [Q' _]]]|[Q' F']]]]]]]]; [eauto|].
      exfalso. assert (PP : p' = p) by congruence. assert (X : h ++ [e] = h' ++ [e']) by congruence.
      apply app_inj_tail in X. destruct X as [_ X]. apply F'. rewrite PP, <- X. exact F. }
    clear - E. revert E. generalize (cc g). induction l as [|c l IH]; simpl; intros E; [eauto|].
    destruct (E c) as [x X]; auto. rewrite X. cbn [bind]. destruct IH as [ls IH]; auto. rewrite IH. cbn [bind]. eauto.
Qed.

(** The lists of the components hold the indices of their nodes. *)
Definition lays (g : graph) (c : list node) (ls : list (list nat)) : Prop :=
  exists cols, Permutation (map fst cols) c /\ NoDup (map fst cols)
   /\ (forall a b ca cb, In (a, b) (g_edges g) -> In (a, ca) cols -> In (b, cb) cols -> (ca < cb)%Z)
   /\ (forall k l, nth_error ls k = Some l -> l <> [] /\ NoDup l /\
              forall i, In i l <-> exists n, nth_error (nodes w) i = Some n /\ In (n, Z.of_nat k) cols)
   /\ forall n k, In (n, k) cols -> (0 <= k < Z.of_nat (length ls))%Z.

Lemma layout_lays g ls : layout_graph w = Ok g -> proper g -> g_nodes g = nodes w ->
  layout dlp ssp cc arrange w = Ok ls -> Forall2 (lays g) (cc g) ls.
Proof.
  intros LG G NW Q. pose proof (layout_acyclic g ls LG G NW Q) as A. unfold layout in Q. rewrite LG in Q. cbn [bind] in Q.
  apply mapM_ok_inv in Q.
  assert (H : forall c l, In c (cc g) -> graph_columns dlp ssp w (subgraph g (arrange c)) = Ok l -> lays g c l).
  { intros c l I X. destruct (component_layout g c LG G NW A I) as [p [h [e [P1 [P2 [P3 [[cols [ls' [Q' [F R]]]]|[Q' F]]]]]]]]; [|congruence].
    rewrite X in Q'. inversion Q'; subst ls'. exists cols. auto. }
  revert H. clear - Q. induction Q as [|c l cs ls X Q IH]; intros H; constructor.
  - apply H; simpl; auto.
  - apply IH. intros; apply H; simpl; auto.
Qed.

Lemma lays_in g c ls i : lays g c ls -> (In i (concat ls) <-> exists n, nth_error (nodes w) i = Some n /\ In n c).
Proof.
  intros [cols [X [_ [_ [Y Z]]]]]. rewrite in_concat. split.
  - intros [l [L I]]. apply In_nth_error in L. destruct L as [k L]. destruct (Y k l L) as [_ [_ W]]. apply W in I.
    destruct I as [n [N I]]. exists n. split; auto. apply (Permutation_in _ X). apply (in_map fst) in I. auto.
  - intros [n [N I]]. apply (Permutation_in _ (Permutation_sym X)) in I. apply in_map_iff in I.
    destruct I as [[m k] [M I]]. simpl in M. subst m. pose proof (Z _ _ I) as B.
    assert (L : Z.to_nat k < length ls) by lia. apply nth_error_Some in L.
    destruct (nth_error ls (Z.to_nat k)) as [l|] eqn:E; [|congruence]. exists l. split; [eapply nth_error_In; eauto|].
    apply (Y _ _ E). exists n. split; auto. rewrite Z2Nat.id by lia. auto.
Qed.

Lemma lays_nodup g c ls : lays g c ls -> NoDup (concat ls).
Proof.
  intros [cols [X [N [_ [Y Z]]]]].
  assert (H : forall m, (forall k l, nth_error ls k = Some l -> NoDup l /\ forall i, In i l -> exists n, nth_error (nodes w) i = Some n /\ In (n, Z.of_nat (m + k)) cols) -> NoDup (concat ls)).
  { clear Y Z. induction ls as [|l ls IH]; intros m H; simpl; [constructor|].
    apply nodup_app.
    - apply (H 0 l eq_refl).
    - apply (IH (S m)). intros k l' L. destruct (H (S k) l' L) as [A B]. split; auto. intros i I.
      replace (S m + k) with (m + S k) by lia. auto.
    - intros i I J. destruct (H 0 l eq_refl) as [_ B]. destruct (B i J) as [n [B1 B2]].
      apply in_concat in I. destruct I as [l' [L I]]. apply In_nth_error in L. destruct L as [k L].
      destruct (H (S k) l' L) as [_ B']. destruct (B' i I) as [n' [B1' B2']]. rewrite B1 in B1'. inversion B1'; subst n'.
      apply (get_some node_eqb node_eqb_eq) in B2, B2'; auto. rewrite B2 in B2'. inversion B2'. lia. }
  apply (H 0). intros k l L. destruct (Y k l L) as [_ [A B]]. split; auto. intros i I. apply B. auto.
Qed.

Lemma layout_once g ls : layout_graph w = Ok g -> proper g -> g_nodes g = nodes w ->
  layout dlp ssp cc arrange w = Ok ls -> Permutation (concat (concat ls)) (seq 0 (length (nodes w))).
Proof.
  intros LG G NW Q. pose proof (layout_lays g ls LG G NW Q) as L. destruct (CC g G) as [P1 _].
  assert (ND : NoDup (concat (cc g))) by (eapply Permutation_NoDup; [symmetry; exact P1 | apply G]).
  apply NoDup_Permutation; [|apply seq_NoDup|].
  - clear Q P1. induction L as [|c l cs ls H L IH]; simpl; [constructor|]. rewrite concat_app. simpl in ND.
    apply nodup_app; [eapply lays_nodup; eauto | apply IH; eapply NoDup_app_r; eauto |].
    intros i I J. apply (lays_in g c l i H) in J. destruct J as [n [N J]].
    apply (NoDup_app_disj _ _ n ND J). clear - I N L. induction L as [|c' l' cs ls H L IH]; simpl in *; [destruct I|].
    rewrite concat_app in I. apply in_app_or in I. apply in_or_app. destruct I as [I|I]; auto.
    apply (lays_in g c' l' i H) in I. destruct I as [n' [N' I]]. left. rewrite N in N'. inversion N'; subst; auto.
  - intros i. rewrite in_seq. split.
    + intros I. assert (H : exists n, nth_error (nodes w) i = Some n).
      { clear - I L. induction L as [|c' l' cs ls H L IH]; simpl in *; [destruct I|].
        rewrite concat_app in I. apply in_app_or in I. destruct I as [I|I]; auto.
        apply (lays_in g c' l' i H) in I. destruct I as [n [N _]]. eauto. }
      destruct H as [n H]. assert (i < length (nodes w)) by (apply nth_error_Some; congruence). lia.
    + intros [_ B]. simpl in B. apply nth_error_Some in B. destruct (nth_error (nodes w) i) as [n|] eqn:N; [|congruence].
      assert (I : In n (concat (cc g))) by (apply (Permutation_in _ (Permutation_sym P1)); rewrite NW; eapply nth_error_In; eauto).
      clear - I L N. induction L as [|c' l' cs ls H L IH]; simpl in *; [destruct I|].
      rewrite concat_app. apply in_or_app. apply in_app_or in I. destruct I as [I|I]; auto.
      left. apply (lays_in g c' l' i H). eauto.
Qed.

Lemma layout_component g ls m l : layout_graph w = Ok g -> proper g -> g_nodes g = nodes w ->
  layout dlp ssp cc arrange w = Ok ls -> nth_error ls m = Some l -> exists c, In c (cc g) /\ lays g c l.
Proof.
  intros LG G NW Q M. pose proof (layout_lays g ls LG G NW Q) as L. clear - M L.
  revert m M. induction L as [|c' l' cs ls H L IH]; intros m M; destruct m; try discriminate.
  - simpl in M. inversion M; subst. exists c'. simpl; auto.
  - simpl in M. destruct (IH _ M) as [c [I J]]. exists c. simpl; auto.
Qed.
Lemma component_lays g ls c : layout_graph w = Ok g -> proper g -> g_nodes g = nodes w ->
  layout dlp ssp cc arrange w = Ok ls -> In c (cc g) -> exists l, In l ls /\ lays g c l.
Proof.
  intros LG G NW Q M. pose proof (layout_lays g ls LG G NW Q) as L. clear - M L.
  induction L as [|c' l' cs ls H L IH]; [destruct M|]; destruct M as [->|M]; [exists l'; simpl; auto|].
  destruct (IH M) as [l [I J]]. exists l. simpl; auto.
Qed.

Lemma lays_edge g c l a b i j : lays g c l -> In (a, b) (g_edges g) -> In a c -> In b c ->
  nth_error (nodes w) i = Some a -> nth_error (nodes w) j = Some b ->
  exists ca cb la lb, nth_error l ca = Some la /\ nth_error l cb = Some lb /\ In i la /\ In j lb /\ ca < cb.
Proof.
  intros [cols [X [N [E [Y Z]]]]] I Ia Ib Na Nb.
  assert (col : forall n, In n c -> exists k, In (n, k) cols).
  { intros n J. apply (Permutation_in _ (Permutation_sym X)) in J. apply in_map_iff in J.
    destruct J as [[m k] [M J]]. simpl in M. subst. eauto. }
  destruct (col a Ia) as [ka Ka], (col b Ib) as [kb Kb]. pose proof (E _ _ _ _ I Ka Kb) as LT.
  pose proof (Z _ _ Ka) as Ba. pose proof (Z _ _ Kb) as Bb.
  assert (La : Z.to_nat ka < length l) by lia. assert (Lb : Z.to_nat kb < length l) by lia.
  apply nth_error_Some in La, Lb.
  destruct (nth_error l (Z.to_nat ka)) as [la|] eqn:Ea; [|congruence].
  destruct (nth_error l (Z.to_nat kb)) as [lb|] eqn:Eb; [|congruence].
  exists (Z.to_nat ka), (Z.to_nat kb), la, lb. repeat split; auto; try lia.
  - apply (Y _ _ Ea). exists a. rewrite Z2Nat.id by lia. auto.
  - apply (Y _ _ Eb). exists b. rewrite Z2Nat.id by lia. auto.
Qed.
End Layout.

(** ** When the columns are found, and when they are not *)
Lemma found_all g p e : (forall n, In n (g_nodes g) -> leads (g_edges g) n e) -> found g p e.
Proof. intros H n I J. exfalso. auto. Qed.

Lemma not_found g p e n : In n (g_nodes g) -> (forall m, ~ In (m, n) (g_edges g)) -> ~ leads (g_edges g) n e -> ~ found g p e.
Proof.
  intros I N L F. destruct (F n I L) as [[a [A1 [A2 _]]] _]. destruct (leads_strict _ _ _ A2 A1) as [k K].
  apply route_last in K. destruct K as [b [_ B]]. exact (N _ B).
Qed.

Lemma reach_last g p : proper g -> acyclic (g_edges g) -> longest_path g p ->
  forall k n, In n (g_nodes g) ->
  (exists z, leads (g_edges g) n z /\ last_one (g_edges g) z) \/ exists x, route (g_edges g) n x k.
Proof.
  intros G A LP. induction k as [|k IH]; intros n I.
  - right. exists n. constructor.
  - destruct (IH n I) as [H|[x R]]; auto.
    destruct (find (fun e => node_eqb (fst e) x) (g_edges g)) as [[y z]|] eqn:F.
    + apply find_some in F. destruct F as [F1 F2]. simpl in F2. apply node_eqb_eq in F2. subst y.
      right. exists z. replace (S k) with (k + 1) by lia. eapply route_app; eauto. econstructor; [exact F1 | constructor].
    + left. exists x. split; [eexists; eauto|]. intros m M. pose proof (find_none _ _ F _ M) as X. simpl in X.
      rewrite node_eqb_refl in X. discriminate.
Qed.

Lemma leads_last g p h e : proper g -> acyclic (g_edges g) -> longest_path g p -> p = h ++ [e] ->
  (forall x y, In x (g_nodes g) -> In y (g_nodes g) -> last_one (g_edges g) x -> last_one (g_edges g) y -> x = y) ->
  forall n, In n (g_nodes g) -> leads (g_edges g) n e.
Proof.
  intros G A LP He U n I.
  assert (Ie : In e (g_nodes g)) by (apply (proj1 (proj2 LP)); rewrite He; apply in_or_app; simpl; auto).
  assert (Le : last_one (g_edges g) e).
  { intros m M. destruct LP as [C [Ip L]].
    assert (C' : chain (g_edges g) (p ++ [m])).
    { rewrite He, <- app_assoc. simpl. apply chain_app; [rewrite <- He; auto|]. constructor; auto. constructor. }
    assert (X : length (p ++ [m]) <= length p).
    { apply L; auto. intros x J. apply in_app_or in J. destruct J as [J|[<-|[]]]; auto. apply (proj2 G) in M; tauto. }
    rewrite app_length in X. simpl in X. lia. }
  destruct (reach_last g p G A LP (length p) n I) as [[z [Z1 Z2]]|[x R]].
  - rewrite (U e z); auto. eapply leads_node; eauto.
  - exfalso. destruct (route_chain _ _ _ _ R) as [t [h' [C [_ T]]]].
    assert (X : length (n :: t) <= length p) by (apply LP; auto; apply chain_incl; auto). simpl in X. lia.
Qed.

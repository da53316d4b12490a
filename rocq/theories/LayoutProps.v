(** Columns of graphs (C57) and layouts of workflows (C58). *)
From Coq Require Import Bool Arith ZArith Lia Relations Permutation Sorted List.
From Verif Require Import Base BaseProofs ExecModel ExecSpec ExecStruct Topo LayoutModel LayoutSpec LayoutProofs LayoutMain.
From Verif Require LayoutNetworkx.
Import ListNotations.

(** *** C57: get_column_by_node *)

Theorem C57_columns : forall dlp ssp, gives_longest_path dlp -> lists_simple_paths ssp ->
  forall g, proper g -> acyclic (g_edges g) -> g_nodes g <> [] ->
  exists p h e, dlp g = Some p /\ longest_path g p /\ p = h ++ [e]
    /\ (found g p e <-> exists cols, get_column_by_node dlp ssp g = Ok cols)
    /\ (~ found g p e <-> get_column_by_node dlp ssp g = Err KeyError)
    /\ forall cols, get_column_by_node dlp ssp g = Ok cols -> columns_of g p e cols.
Proof.
  intros dlp ssp D S1 g G A NE.
  destruct (columns_any dlp ssp D S1 g G A NE) as [p [h [e [P1 [P2 [P3 [[cols [Q [F [C _]]]]|[Q F]]]]]]]].
  - exists p, h, e. split; auto. split; auto. split; auto. rewrite Q. split; [split; eauto|]. split.
    + split; [tauto | discriminate].
    + intros cols' X. inversion X; subst; auto.
  - exists p, h, e. split; auto. split; auto. split; auto. rewrite Q. split.
    + split; [tauto | intros [cols X]; discriminate].
    + split; [split; auto | intros cols X; discriminate].
Qed.

Lemma ok_acyclic dlp ssp g cols : gives_longest_path dlp -> proper g -> get_column_by_node dlp ssp g = Ok cols ->
  acyclic (g_edges g) /\ g_nodes g <> [].
Proof.
  intros D G Q. assert (A : acyclic (g_edges g)).
  { intros a k R. rewrite (columns_cyclic dlp ssp D g G) in Q; [discriminate|]. intros A. exact (A _ _ R). }
  split; auto. intros N. destruct (D g G) as [X _]. destruct (X A) as [p [Y [Z _]]].
  unfold get_column_by_node in Q. rewrite Y, (Z N) in Q. discriminate.
Qed.

Theorem C57_rightwards : forall dlp ssp, gives_longest_path dlp -> lists_simple_paths ssp ->
  forall g cols, proper g -> get_column_by_node dlp ssp g = Ok cols ->
  NoDup (map fst cols) /\ (forall n, In n (map fst cols) <-> In n (g_nodes g))
  /\ forall a b ca cb, In (a, b) (g_edges g) -> In (a, ca) cols -> In (b, cb) cols -> (ca < cb)%Z.
Proof.
  intros dlp ssp D S1 g cols G Q. destruct (ok_acyclic _ _ _ _ D G Q) as [A NE].
  destruct (columns_any dlp ssp D S1 g G A NE) as [p [h [e [P1 [P2 [P3 [[cols' [Q' [F [C [R _]]]]]|[Q' F]]]]]]]]; [|congruence].
  rewrite Q in Q'. inversion Q'; subst cols'. destruct C as [C _]. split; [|split; auto].
  - eapply Permutation_NoDup; [symmetry; exact C | apply G].
  - intros n. split; apply Permutation_in; [|symmetry]; auto.
Qed.

Theorem C57_no_gap : forall dlp ssp, gives_longest_path dlp -> lists_simple_paths ssp ->
  forall g cols, proper g -> get_column_by_node dlp ssp g = Ok cols ->
  forall n c, In (n, c) cols -> (0 <= c)%Z /\ forall k, (0 <= k <= c)%Z -> exists m, In (m, k) cols.
Proof.
  intros dlp ssp D S1 g cols G Q. destruct (ok_acyclic _ _ _ _ D G Q) as [A NE].
  destruct (columns_any dlp ssp D S1 g G A NE) as [p [h [e [P1 [P2 [P3 [[cols' [Q' [F [C [_ R]]]]]|[Q' F]]]]]]]]; [|congruence].
  rewrite Q in Q'. inversion Q'; subst cols'.
  assert (H : forall len a n c b, length a <= len -> cols = a ++ (n, c) :: b ->
     (0 <= c)%Z /\ forall k, (0 <= k <= c)%Z -> exists m, In (m, k) cols).
  { induction len as [|len IH]; intros a n c b L X; destruct (R a n c b X) as [B1 B2]; split; auto; intros k K.
    - destruct a; [|simpl in L; lia]. simpl in B2. destruct B2 as [->|[[]|[]]].
      exists n. replace k with 0%Z by lia. rewrite X. simpl; auto.
    - assert (Y : k = c \/ (k <= c - 1)%Z) by lia. destruct Y as [->|Y].
      { exists n. rewrite X. apply in_or_app; simpl; auto. }
      destruct B2 as [->|[B2|B2]]; [lia| |].
      + apply in_map_iff in B2. destruct B2 as [[m c'] [M B2]]. simpl in M. subst c'.
        apply in_split in B2. destruct B2 as [a1 [a2 ->]].
        apply (IH a1 m (c - 1)%Z (a2 ++ (n, c) :: b)); try lia.
        * rewrite app_length in L. simpl in L. lia.
        * rewrite X, <- app_assoc. auto.
      + apply in_map_iff in B2. destruct B2 as [[m c'] [M B2]]. simpl in M. subst c'.
        apply in_split in B2. destruct B2 as [a1 [a2 ->]].
        apply (IH a1 m c (a2 ++ (n, c) :: b)); try lia.
        * rewrite app_length in L. simpl in L. lia.
        * rewrite X, <- app_assoc. auto. }
  intros n c I. apply in_split in I. destruct I as [a [b I]]. apply (H (length a) a n c b); auto.
Qed.

(** One node at the end: the columns are found, whatever the order of the nodes. *)
Theorem C57_one_end : forall dlp ssp, gives_longest_path dlp -> lists_simple_paths ssp ->
  forall g, proper g -> acyclic (g_edges g) -> g_nodes g <> [] ->
  (forall x y, In x (g_nodes g) -> In y (g_nodes g) ->
     (forall m, ~ In (x, m) (g_edges g)) -> (forall m, ~ In (y, m) (g_edges g)) -> x = y) ->
  exists cols, get_column_by_node dlp ssp g = Ok cols.
Proof.
  intros dlp ssp D S1 g G A NE U.
  destruct (columns_any dlp ssp D S1 g G A NE) as [p [h [e [P1 [P2 [P3 [[cols [Q _]]|[Q F]]]]]]]]; [eauto|].
  exfalso. apply F. apply found_all. eapply leads_last; eauto.
Qed.

(** A node at the beginning that does not lead to the end of the longest path: KeyError,
    whatever the order of the nodes. *)
Theorem C57_other_beginning : forall dlp ssp, gives_longest_path dlp -> lists_simple_paths ssp ->
  forall g n, proper g -> acyclic (g_edges g) -> In n (g_nodes g) -> (forall m, ~ In (m, n) (g_edges g)) ->
  (forall p h e, longest_path g p -> p = h ++ [e] -> ~ leads (g_edges g) n e) ->
  get_column_by_node dlp ssp g = Err KeyError.
Proof.
  intros dlp ssp D S1 g n G A I N L.
  assert (NE : g_nodes g <> []) by (intros X; rewrite X in I; destruct I).
  destruct (columns_any dlp ssp D S1 g G A NE) as [p [h [e [P1 [P2 [P3 [[cols [Q [F _]]]|[Q F]]]]]]]]; auto.
  exfalso. exact (not_found g p e n I N (L _ _ _ P2 P3) F).
Qed.

Theorem C57_cycle : forall dlp ssp, gives_longest_path dlp ->
  forall g a k, proper g -> route (g_edges g) a a (S k) -> get_column_by_node dlp ssp g = Err (EvalError 0).
Proof.
  intros dlp ssp D g a k G R. apply (columns_cyclic dlp ssp D); auto. intros A. exact (A _ _ R).
Qed.

(** Functions as networkx has them exist. *)
Theorem C57_networkx : exists dlp ssp cc,
  gives_longest_path dlp /\ lists_simple_paths ssp /\ lists_components cc.
Proof.
  exists LayoutNetworkx.dag_longest_path, LayoutNetworkx.simple_paths, LayoutNetworkx.connected_components.
  split; [apply LayoutNetworkx.dag_longest_path_ok|]. split; [apply LayoutNetworkx.simple_paths_ok | apply LayoutNetworkx.connected_components_ok].
Qed.

(** The same graph, with its nodes in another order. *)
Theorem C57_order_refuted : exists dlp ssp g g', gives_longest_path dlp /\ lists_simple_paths ssp
  /\ proper g /\ acyclic (g_edges g) /\ g_edges g' = g_edges g /\ Permutation (g_nodes g') (g_nodes g)
  /\ (exists cols, get_column_by_node dlp ssp g = Ok cols) /\ get_column_by_node dlp ssp g' = Err KeyError.
Proof.
  set (E := [(NBlock 0, NBlock 1); (NBlock 1, NBlock 2); (NBlock 0, NBlock 3)]).
  exists LayoutNetworkx.dag_longest_path, LayoutNetworkx.simple_paths,
    (mkGraph [NBlock 0; NBlock 1; NBlock 2; NBlock 3] E), (mkGraph [NBlock 3; NBlock 0; NBlock 1; NBlock 2] E).
  assert (G : proper (mkGraph [NBlock 0; NBlock 1; NBlock 2; NBlock 3] E)).
  { split.
    - repeat constructor; simpl; intuition discriminate.
    - intros a b I. simpl in I. repeat (destruct I as [I|I]; [inversion I; subst; simpl; tauto|]). destruct I. }
  split; [apply LayoutNetworkx.dag_longest_path_ok|]. split; [apply LayoutNetworkx.simple_paths_ok|]. split; auto. split.
  { intros a k R. assert (H : LayoutNetworkx.has_cycle (mkGraph [NBlock 0; NBlock 1; NBlock 2; NBlock 3] E) = true)
      by (apply LayoutNetworkx.has_cycle_iff; eauto). vm_compute in H. discriminate. }
  split; auto. split.
  { simpl. apply (Permutation_app_comm [NBlock 3] [NBlock 0; NBlock 1; NBlock 2]). }
  split; [eexists|]; vm_compute; reflexivity.
Qed.

(** There may be more columns than nodes on the longest path. *)
Theorem C57_more_columns_refuted : exists dlp ssp g p cols n c, gives_longest_path dlp /\ lists_simple_paths ssp
  /\ proper g /\ longest_path g p /\ get_column_by_node dlp ssp g = Ok cols /\ In (n, c) cols /\ (Z.of_nat (length p) <= c)%Z.
Proof.
  set (E := [(NBlock 0, NBlock 1); (NBlock 1, NBlock 2); (NBlock 3, NBlock 2); (NBlock 3, NBlock 4); (NBlock 4, NBlock 5)]).
  set (g := mkGraph (map NBlock [0; 1; 2; 3; 4; 5]) E).
  assert (G : proper g).
  { split.
    - repeat constructor; simpl; intuition discriminate.
    - intros a b I. simpl in I. repeat (destruct I as [I|I]; [inversion I; subst; simpl; tauto|]). destruct I. }
  assert (A : acyclic (g_edges g)).
  { intros a k R. assert (H : LayoutNetworkx.has_cycle g = true)
      by (apply LayoutNetworkx.has_cycle_iff; eauto). vm_compute in H. discriminate. }
  destruct (LayoutNetworkx.dag_longest_path_ok g G) as [X _]. destruct (X A) as [p [P1 [_ P2]]].
  exists LayoutNetworkx.dag_longest_path, LayoutNetworkx.simple_paths, g, p,
    [(NBlock 0, 0%Z); (NBlock 1, 1%Z); (NBlock 2, 2%Z); (NBlock 3, 1%Z); (NBlock 4, 2%Z); (NBlock 5, 3%Z)], (NBlock 5), 3%Z.
  split; [apply LayoutNetworkx.dag_longest_path_ok|]. split; [apply LayoutNetworkx.simple_paths_ok|]. split; auto.
  split; [apply P2; discriminate|]. split; [vm_compute; reflexivity|].
  split; [simpl; tauto|]. vm_compute in P1. inversion P1; subst. simpl. lia.
Qed.

(** *** C58: Workflow.layout *)

Theorem C58_graph : forall w, well_formed w -> exists g, layout_graph w = Ok g /\ g_nodes g = nodes w
  /\ forall a b, In (a, b) (g_edges g) <-> exists s t, In (s, t) (pipes w) /\ holds w a s /\ holds w b t.
Proof.
  intros w WF. destruct (layout_graph_ok w WF) as [g [X [Y [_ Z]]]]. exists g. auto.
Qed.

Lemma joined_piped w g a b : (forall a b, In (a, b) (g_edges g) <-> piped w a b) ->
  (joined (g_edges g) a b <-> clos_refl_sym_trans node (piped w) a b).
Proof.
  intros H. split; induction 1 as [x y X|x|x y X IH|x y z X IX Y IY];
    [apply rst_step; apply H; exact X | apply rst_refl | apply rst_sym; exact IH | exact (rst_trans _ _ _ _ _ IX IY)
    |apply rst_step; apply H; exact X | apply rst_refl | apply rst_sym; exact IH | exact (rst_trans _ _ _ _ _ IX IY)].
Qed.

Theorem C58_layout : forall dlp ssp cc arrange, gives_longest_path dlp -> lists_simple_paths ssp ->
  lists_components cc -> (forall c, Permutation (arrange c) c) ->
  forall w ls, well_formed w -> layout dlp ssp cc arrange w = Ok ls ->
  Permutation (concat (concat ls)) (seq 0 (length (nodes w)))
  /\ (forall comp, In comp ls -> comp <> [] /\ forall col, In col comp -> col <> [])
  /\ (forall a b i j, piped w a b -> nth_error (nodes w) i = Some a -> nth_error (nodes w) j = Some b ->
        exists comp ca cb la lb, In comp ls /\ nth_error comp ca = Some la /\ nth_error comp cb = Some lb
          /\ In i la /\ In j lb /\ ca < cb)
  /\ (forall comp a b i j, In comp ls -> nth_error (nodes w) i = Some a -> nth_error (nodes w) j = Some b ->
        In i (concat comp) -> (In j (concat comp) <-> clos_refl_sym_trans node (piped w) a b)).
Proof.
  intros dlp ssp cc arrange D S1 CC AR w ls WF Q.
  destruct (layout_graph_ok w WF) as [g [LG [NW [G E]]]].
  split; [eapply layout_once; eauto|]. split; [|split].
  - intros comp I. apply In_nth_error in I. destruct I as [m M].
    destruct (layout_component dlp ssp cc arrange D S1 CC AR w WF g ls m comp LG G NW Q M) as [c [I L]].
    destruct (component_facts cc CC g c G I) as [X _]. split.
    + intros ->. destruct c as [|n c]; [congruence|]. destruct L as [cols [L1 [_ [_ [_ L5]]]]].
      destruct cols as [|[m' k] cols]; [apply Permutation_nil in L1; discriminate|].
      specialize (L5 m' k (or_introl eq_refl)). simpl in L5. lia.
    + intros col J. apply In_nth_error in J. destruct J as [k J]. destruct L as [cols [_ [_ [_ [L4 _]]]]]. apply (L4 _ _ J).
  - intros a b i j P Na Nb. apply E in P. destruct (proj2 G _ _ P) as [Ia Ib].
    destruct (in_component cc CC g a G Ia) as [c [Cc Ca]].
    destruct (component_facts cc CC g c G Cc) as [X [Y _]].
    assert (Cb : In b c) by (eapply closed_edge; eauto).
    destruct (component_lays dlp ssp cc arrange D S1 CC AR w WF g ls c LG G NW Q Cc) as [l [L1 L2]].
    destruct (lays_edge w g c l a b i j L2 P Ca Cb Na Nb) as [ca [cb [la [lb H]]]].
    exists l, ca, cb, la, lb. tauto.
  - intros comp a b i j I Na Nb Ii. apply In_nth_error in I. destruct I as [m M].
    destruct (layout_component dlp ssp cc arrange D S1 CC AR w WF g ls m comp LG G NW Q M) as [c [I L]].
    destruct (component_facts cc CC g c G I) as [X [Y _]].
    rewrite (lays_in w g c comp j L). apply (lays_in w g c comp i L) in Ii. destruct Ii as [a' [Na' Ia]].
    rewrite Na in Na'. inversion Na'; subst a'. rewrite <- (joined_piped w g a b E).
    rewrite <- (Y a b Ia) by (rewrite NW; eapply nth_error_In; eauto). split.
    + intros [b' [Nb' Ib]]. rewrite Nb in Nb'. inversion Nb'; subst; auto.
    + intros Ib. exists b. auto.
Qed.

(** When there is an answer. *)
Theorem C58_answers : forall dlp ssp cc arrange, gives_longest_path dlp -> lists_simple_paths ssp ->
  lists_components cc -> (forall c, Permutation (arrange c) c) ->
  forall w g, well_formed w -> layout_graph w = Ok g ->
  ((exists ls, layout dlp ssp cc arrange w = Ok ls) <->
   acyclic (g_edges g)
   /\ forall c, In c (cc g) ->
        part g c (subgraph g (arrange c))
        /\ exists p h e, dlp (subgraph g (arrange c)) = Some p /\ p = h ++ [e] /\ found (subgraph g (arrange c)) p e)
  /\ (forall e, layout dlp ssp cc arrange w = Err e -> e = KeyError \/ (e = EvalError 0 /\ ~ acyclic (g_edges g))).
Proof.
  intros dlp ssp cc arrange D S1 CC AR w g WF LG.
  destruct (layout_graph_ok w WF) as [g' [LG' [NW [G E]]]]. rewrite LG in LG'. inversion LG'; subst g'.
  split; [|intros e Q; eapply layout_errors; eauto]. split.
  - intros [ls Q]. assert (A : acyclic (g_edges g)) by (eapply layout_acyclic; eauto). split; auto.
    intros c I. split; [apply sub_part; auto|].
    exact (proj1 (layout_iff dlp ssp cc arrange D S1 CC AR w WF g LG G NW A) (ex_intro _ ls Q) c I).
  - intros [A H]. apply (proj2 (layout_iff dlp ssp cc arrange D S1 CC AR w WF g LG G NW A)). intros c I.
    exact (proj2 (H c I)).
Qed.

Theorem C58_one_end : forall dlp ssp cc arrange, gives_longest_path dlp -> lists_simple_paths ssp ->
  lists_components cc -> (forall c, Permutation (arrange c) c) ->
  forall w, well_formed w ->
  (forall n, ~ clos_trans node (piped w) n n) ->
  (forall x y, In x (nodes w) -> In y (nodes w) -> clos_refl_sym_trans node (piped w) x y ->
     (forall m, ~ piped w x m) -> (forall m, ~ piped w y m) -> x = y) ->
  exists ls, layout dlp ssp cc arrange w = Ok ls.
Proof.
  intros dlp ssp cc arrange D S1 CC AR w WF A' U.
  destruct (layout_graph_ok w WF) as [g [LG [NW [G E]]]].
  assert (A : acyclic (g_edges g)).
  { intros a k R. apply (A' a). assert (H : forall x y j, route (g_edges g) x y (S j) -> clos_trans node (piped w) x y).
    { intros x y j. revert x. induction j as [|j IH]; intros x R'; inversion R' as [|x' z y' j' I R'']; subst.
      - apply route_0 in R''. subst. apply t_step. apply E; auto.
      - eapply t_trans; [apply t_step; apply E; eauto | auto]. }
    eapply H; eauto. }
  apply (proj2 (layout_iff dlp ssp cc arrange D S1 CC AR w WF g LG G NW A)). intros c I.
  destruct (component_facts cc CC g c G I) as [X [Y [Z W]]].
  destruct (component_layout dlp ssp cc arrange D S1 CC AR w WF g c LG G NW A I) as [p [h [e [P1 [P2 [P3 _]]]]]].
  exists p, h, e. split; auto. split; auto. apply found_all.
  apply (leads_last _ p h e); auto.
  - apply (sub_proper g c W _ (AR c)).
  - apply (sub_acyclic g c _ (AR c)); auto.
  - assert (PI : forall n, In n (g_nodes (subgraph g (arrange c))) <-> In n c)
      by (intros n; simpl; split; apply Permutation_in; [|symmetry]; apply AR).
    assert (LO : forall n, In n c -> last_one (g_edges (subgraph g (arrange c))) n -> forall m, ~ piped w n m).
    { intros n J H m M. apply E in M. apply (H m). apply (sub_edge g c _ (AR c)). split; auto. split; auto.
      eapply closed_edge; eauto. }
    intros x y Ix Iy Lx Ly. apply PI in Ix, Iy. apply U.
    + rewrite <- NW. auto.
    + rewrite <- NW. auto.
    + apply (joined_piped w g x y E). apply Y; auto.
    + apply LO; auto.
    + apply LO; auto.
Qed.

(** Two ends, and a variable that leads to the one the longest path does not reach: no
    layout, whatever the order of the nodes and the longest path. *)
Definition two_ends : workflow :=
  mkWf [mkBlock [0] [1]; mkBlock [2] [3]; mkBlock [4] [5]; mkBlock [6; 7] [8]]
       [(1, 2); (3, 4); (1, 6); (9, 7)] (Some 5).
Definition two_ends_edges : list (node * node) :=
  [(NBlock 0, NBlock 1); (NBlock 1, NBlock 2); (NBlock 0, NBlock 3); (NVar 9, NBlock 3)].
Ltac two_edge H := simpl in H; repeat (destruct H as [H|H]; [inversion H; subst; clear H|]); try (destruct H; fail).
Lemma two_ends_wf : well_formed two_ends.
Proof.
  constructor; simpl.
  - repeat constructor; simpl; intuition discriminate.
  - repeat constructor; simpl; intuition discriminate.
  - intros s t I. two_edge I; [exists (mkBlock [2] [3])|exists (mkBlock [4] [5])|exists (mkBlock [6; 7] [8])|exists (mkBlock [6; 7] [8])]; simpl; auto 10.
  - intros s t b I J. two_edge I; repeat (destruct J as [<-|J]; [simpl; intuition discriminate|]); destruct J.
  - intros o O. inversion O; subst. exists (mkBlock [4] [5]). simpl; auto.
Qed.
Lemma two_ends_graph : layout_graph two_ends = Ok (mkGraph (nodes two_ends) two_ends_edges).
Proof. vm_compute. reflexivity. Qed.
Lemma two_ends_leads x : leads two_ends_edges (NVar 9) x -> x = NVar 9 \/ x = NBlock 3.
Proof.
  intros [k R]. inversion R as [|a b c j I R']; subst; auto. two_edge I. right.
  inversion R' as [|a b c j' I R'']; subst; auto. two_edge I.
Qed.
Lemma two_ends_acyclic : acyclic two_ends_edges.
Proof.
  intros a k R. destruct (layout_graph_ok two_ends two_ends_wf) as [g [LG [_ [G _]]]].
  rewrite two_ends_graph in LG. inversion LG; subst g.
  assert (H : LayoutNetworkx.has_cycle (mkGraph (nodes two_ends) two_ends_edges) = true)
    by (apply LayoutNetworkx.has_cycle_iff; eauto). vm_compute in H. discriminate.
Qed.
Theorem C58_two_ends_refuted : well_formed two_ends /\ (forall n, ~ clos_trans node (piped two_ends) n n)
  /\ forall dlp ssp cc arrange, gives_longest_path dlp -> lists_simple_paths ssp ->
     lists_components cc -> (forall c, Permutation (arrange c) c) ->
     layout dlp ssp cc arrange two_ends = Err KeyError.
Proof.
  destruct (layout_graph_ok two_ends two_ends_wf) as [g [LG [NW [G E]]]].
  rewrite two_ends_graph in LG. inversion LG; subst g. simpl in E.
  split; [apply two_ends_wf|]. split.
  - intros n C. assert (H : forall x y, clos_trans node (piped two_ends) x y -> exists k, route two_ends_edges x y (S k)).
    { induction 1 as [x y X|x y z X [j J] Y [k K]].
      - exists 0. econstructor; [apply E; exact X | constructor].
      - exists (j + S k). replace (S (j + S k)) with (S j + S k) by lia. eapply route_app; eauto. }
    destruct (H _ _ C) as [k K]. exact (two_ends_acyclic _ _ K).
  - intros dlp ssp cc arrange D S1 CC AR.
    pose proof two_ends_acyclic as A.
    destruct (layout dlp ssp cc arrange two_ends) as [ls|e] eqn:Q.
    2: { destruct (layout_errors dlp ssp cc arrange D S1 CC AR two_ends two_ends_wf _ e two_ends_graph G NW Q) as [->|[_ X]]; auto.
         exfalso. exact (X A). }
    exfalso.
    pose proof (proj1 (layout_iff dlp ssp cc arrange D S1 CC AR two_ends two_ends_wf _ two_ends_graph G NW A) (ex_intro _ ls Q)) as H.
    assert (I9 : In (NVar 9) (nodes two_ends)) by (vm_compute; tauto).
    destruct (in_component cc CC _ (NVar 9) G I9) as [c [Cc C9]].
    destruct (component_facts cc CC _ c G Cc) as [X [Y [Z W]]].
    destruct (H c Cc) as [p [h [e [P1 [P2 F]]]]].
    destruct (component_layout dlp ssp cc arrange D S1 CC AR two_ends two_ends_wf _ c two_ends_graph G NW A Cc) as [p' [h' [e' [P1' [LP _]]]]].
    assert (PP : p' = p) by congruence. rewrite PP in LP. clear P1' PP p' h' e'.
    set (s := subgraph (mkGraph (nodes two_ends) two_ends_edges) (arrange c)) in *.
    assert (SE : forall a b, In (a, b) (g_edges s) <-> In (a, b) two_ends_edges /\ In a c /\ In b c) by exact (sub_edge (mkGraph (nodes two_ends) two_ends_edges) c _ (AR c)).
    assert (SN : forall n, In n (g_nodes s) <-> In n c) by (intros n; simpl; split; apply Permutation_in; [|symmetry]; apply AR).
    assert (C3 : In (NBlock 3) c) by (apply (closed_edge _ G c Y (NVar 9)); auto; simpl; tauto).
    assert (C0 : In (NBlock 0) c) by (apply (closed_edge' _ G c Y _ (NBlock 3)); auto; simpl; tauto).
    assert (C1 : In (NBlock 1) c) by (apply (closed_edge _ G c Y (NBlock 0)); auto; simpl; tauto).
    assert (C2 : In (NBlock 2) c) by (apply (closed_edge _ G c Y (NBlock 1)); auto; simpl; tauto).
    assert (L3 : 3 <= length p).
    { apply (proj2 (proj2 LP) [NBlock 0; NBlock 1; NBlock 2]).
      - constructor; [apply SE; simpl; tauto|]. constructor; [apply SE; simpl; tauto|]. constructor.
      - intros n J. apply SN. simpl in J. destruct J as [<-|[<-|[<-|[]]]]; auto. }
    assert (E2 : e = NBlock 2).
    { destruct LP as [C _]. destruct p as [|n0 [|n1 [|n2 t]]]; simpl in L3; try lia.
      apply chain_tl in C. destruct C as [I0 C]. apply SE in I0. destruct I0 as [I0 _].
      apply chain_tl in C. destruct C as [I1 C]. apply SE in I1. destruct I1 as [I1 _].
      assert (n2 = NBlock 2) by (two_edge I0; two_edge I1; auto). subst n2.
      destruct t as [|n3 t].
      - change [n0; n1; NBlock 2] with ([n0; n1] ++ [NBlock 2]) in P2. apply app_inj_tail in P2. symmetry. tauto.
      - apply chain_tl in C. destruct C as [I2 _]. apply SE in I2. destruct I2 as [I2 _]. two_edge I2. }
    apply (not_found s p e (NVar 9)); auto.
    + apply SN; auto.
    + intros m M. apply SE in M. destruct M as [M _]. two_edge M.
    + rewrite E2. intros [k R]. apply (route_incl _ two_ends_edges) in R; [|intros a b J; apply SE in J; tauto].
      destruct (two_ends_leads (NBlock 2)) as [K|K]; [eexists; eauto | discriminate | discriminate].
Qed.

Print Assumptions C57_columns.
Print Assumptions C57_rightwards.
Print Assumptions C57_no_gap.
Print Assumptions C57_one_end.
Print Assumptions C57_other_beginning.
Print Assumptions C57_cycle.
Print Assumptions C57_networkx.
Print Assumptions C57_order_refuted.
Print Assumptions C57_more_columns_refuted.
Print Assumptions C58_graph.
Print Assumptions C58_layout.
Print Assumptions C58_answers.
Print Assumptions C58_one_end.
Print Assumptions C58_two_ends_refuted.

(** Two chains into one block, and a variable outside blocks: four columns. *)
Definition layout_ex : workflow :=
  mkWf [mkBlock [0] [1]; mkBlock [2] [3]; mkBlock [4; 5] [6]; mkBlock [7] [8]]
       [(1, 2); (3, 4); (9, 5); (10, 7)] (Some 6).
Example C58_example :
  layout LayoutNetworkx.dag_longest_path LayoutNetworkx.simple_paths LayoutNetworkx.connected_components (fun c => c) layout_ex
  = Ok [[[0]; [1; 4]; [2]]; [[5]; [3]]]
  /\ nodes layout_ex = [NBlock 0; NBlock 1; NBlock 2; NBlock 3; NVar 9; NVar 10].
Proof. split; vm_compute; reflexivity. Qed.

(** A node that does not lead to the end of the longest path comes after its
    predecessors. *)
Example C57_example :
  get_column_by_node LayoutNetworkx.dag_longest_path LayoutNetworkx.simple_paths
    (mkGraph (map NBlock [0; 1; 2; 3; 4]) [(NBlock 0, NBlock 1); (NBlock 1, NBlock 2); (NBlock 4, NBlock 2); (NBlock 0, NBlock 3)])
  = Ok [(NBlock 0, 0%Z); (NBlock 1, 1%Z); (NBlock 2, 2%Z); (NBlock 3, 1%Z); (NBlock 4, 1%Z)].
Proof. vm_compute. reflexivity. Qed.

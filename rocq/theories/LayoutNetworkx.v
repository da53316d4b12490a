(** Functions that behave as the statements about layouts ask networkx to. *)
From Coq Require Import Bool Arith Lia Relations Permutation Sorted List.
From Verif Require Import Base BaseProofs ExecModel LayoutModel LayoutSpec LayoutProofs.
Import ListNotations.

(** Paths without repeated node. *)
Fixpoint walks (fuel : nat) (E : list (node * node)) (seen : list node) (a b : node) : list (list node) :=
  if node_eqb a b then [[a]] else
  match fuel with
  | 0 => []
  | S n => flat_map (fun e => if node_eqb (fst e) a && negb (memb node_eqb (snd e) (a :: seen))
                              then map (cons a) (walks n E (a :: seen) (snd e) b) else []) E
  end.
Fixpoint insert (p : list node) (l : list (list node)) : list (list node) :=
  match l with
  | [] => [p]
  | q :: l' => if length p <=? length q then p :: l else q :: insert p l'
  end.
Definition simple_paths (g : graph) (a b : node) : list (list node) :=
  fold_right insert [] (walks (length (g_nodes g)) (g_edges g) [] a b).
Definition has_cycle (g : graph) : bool :=
  existsb (fun e => match simple_paths g (snd e) (fst e) with [] => false | _ => true end) (g_edges g).
Definition longer (p q : list node) : list node := if length p <? length q then q else p.
Definition dag_longest_path (g : graph) : option (list node) :=
  if has_cycle g then None
  else Some (fold_left longer (flat_map (fun a => flat_map (simple_paths g a) (g_nodes g)) (g_nodes g)) []).
Definition both_ways (g : graph) : graph :=
  mkGraph (g_nodes g) (g_edges g ++ map (fun e => (snd e, fst e)) (g_edges g)).
Definition class (g : graph) (v : node) : list node :=
  filter (fun u => match simple_paths (both_ways g) v u with [] => false | _ => true end) (g_nodes g).
Definition connected_components (g : graph) : list (list node) :=
  flat_map (fun v => match class g v with
                     | u :: c => if node_eqb u v then [u :: c] else []
                     | [] => []
                     end) (g_nodes g).

Lemma walks_sound fuel E : forall seen a b l, In l (walks fuel E seen a b) ->
  chain E l /\ NoDup l /\ (exists t, l = a :: t) /\ (exists h, l = h ++ [b]) /\ forall x, In x (tl l) -> ~ In x seen.
Proof.
  induction fuel as [|n IH]; intros seen a b l I; cbn [walks] in I; destruct (node_eqb a b) eqn:Q.
  - destruct I as [<-|[]]. apply node_eqb_eq in Q. subst. split; [constructor|]. split; [repeat constructor; auto|].
    split; [eauto|]. split; [exists []; auto | intros ? []].
  - destruct I.
  - destruct I as [<-|[]]. apply node_eqb_eq in Q. subst. split; [constructor|]. split; [repeat constructor; auto|].
    split; [eauto|]. split; [exists []; auto | intros ? []].
  - apply in_flat_map in I. destruct I as [[x y] [I J]]. cbn [fst snd] in J.
    destruct (node_eqb x a) eqn:X; [|cbn [andb] in J; destruct J]. apply node_eqb_eq in X. subst x. cbn [andb] in J.
    destruct (memb node_eqb y (a :: seen)) eqn:M; [cbn [andb negb] in J; destruct J|]. cbn [negb] in J.
    assert (NM' : ~ In y (a :: seen)) by (intros Z; apply node_memb in Z; congruence).
    + apply in_map_iff in J. destruct J as [l' [<- J]].
      apply IH in J. destruct J as [J1 [J2 [[t ->] [[h J4] J5]]]]. simpl in J5.
      assert (NM : ~ In y seen) by (intros Z; apply NM'; simpl; auto).
      assert (Y : y <> a) by (intros ->; apply NM'; simpl; auto).
      split; [constructor; auto|]. split.
      { constructor; auto. intros [Z|Z]; [congruence|]. apply (J5 _ Z). auto. }
      split; [eauto|]. split; [exists (a :: h); rewrite J4; auto|].
      intros z [<-|Z]; auto. intros W. apply (J5 _ Z). right. auto.
Qed.

Lemma walks_complete E : forall l fuel seen a b t h, chain E l -> NoDup l -> l = a :: t -> l = h ++ [b] ->
  (forall x, In x t -> ~ In x seen) -> length t <= fuel -> In l (walks fuel E seen a b).
Proof.
  induction l as [|z l IH]; intros fuel seen a b t h C N A B W F; [discriminate|].
  inversion A; subst z t. clear A. destruct l as [|y l].
  - destruct h as [|z h]; simpl in B; [|inversion B as [[X Y]]; destruct h; discriminate]. inversion B; subst.
    destruct fuel; simpl; rewrite node_eqb_refl; simpl; auto.
  - assert (AB : a <> b).
    { intros ->. destruct h as [|z h]; simpl in B; [discriminate|]. injection B as X Y.
      inversion N as [|p q NI _]; subst. apply NI. rewrite Y. apply in_or_app; simpl; auto. }
    apply node_eqb_neq in AB. destruct fuel as [|n]; [simpl in F; lia|]. cbn [walks]. rewrite AB.
    apply chain_tl in C. destruct C as [I C]. apply in_flat_map. exists (a, y). split; auto. cbn [fst snd].
    rewrite node_eqb_refl. cbn [andb].
    inversion N as [|p q NI N']; subst p q.
    assert (Y2 : memb node_eqb y (a :: seen) = false).
    { destruct (memb node_eqb y (a :: seen)) eqn:M; auto. exfalso. apply node_memb in M. destruct M as [<-|M].
      - apply NI; simpl; auto.
      - apply (W y); simpl; auto. }
    rewrite Y2. cbn [negb]. apply in_map. destruct h as [|z h]; simpl in B; [discriminate|]. injection B as X Y.
    apply IH with (t := l) (h := h); auto.
    + intros x Ix [<-|J]; [apply NI; simpl; auto | apply (W x); simpl; auto].
    + simpl in F. lia.
Qed.

Lemma insert_in p l x : In x (insert p l) <-> x = p \/ In x l.
Proof.
  induction l as [|q l IH]; simpl; [intuition|]. destruct (length p <=? length q); simpl; [intuition|]. rewrite IH. intuition.
Qed.
Lemma insert_sorted p l : StronglySorted (fun p q : list node => length p <= length q) l ->
  StronglySorted (fun p q : list node => length p <= length q) (insert p l).
Proof.
  induction 1 as [|q l O IH F]; simpl; [repeat constructor|].
  destruct (Nat.leb_spec (length p) (length q)).
  - constructor; [constructor; auto|]. constructor; auto. rewrite Forall_forall in *. intros x X. apply F in X. lia.
  - constructor; auto. apply Forall_forall. intros x X. apply insert_in in X. rewrite Forall_forall in F. destruct X as [->|X]; auto. lia.
Qed.
Lemma sort_in l x : In x (fold_right insert [] l) <-> In x l.
Proof. induction l as [|q l IH]; simpl; [tauto|]. rewrite insert_in, IH. intuition. Qed.

Lemma simple_paths_ok : lists_simple_paths simple_paths.
Proof.
  intros g a b G Ia Ib. split.
  - intros l. unfold simple_paths. rewrite sort_in. split.
    + intros I. apply walks_sound in I. tauto.
    + intros [C [N [[t T] [h H]]]]. apply (walks_complete _ l _ [] a b t h); auto.
      subst l. assert (X : incl (a :: t) (g_nodes g)) by (apply chain_incl; auto).
      apply NoDup_incl_length in X; auto. simpl in X. lia.
  - unfold simple_paths. induction (walks (length (g_nodes g)) (g_edges g) [] a b); simpl; [constructor | apply insert_sorted; auto].
Qed.

(** A route can be made to visit no node twice. *)
Lemma chain_simple E l : chain E l -> forall a t h b, l = a :: t -> l = h ++ [b] ->
  exists l', chain E l' /\ NoDup l' /\ (exists t, l' = a :: t) /\ (exists h, l' = h ++ [b]).
Proof.
  induction 1 as [x|x y l I C IH]; intros a t h b A B.
  - inversion A; subst. exists [a]. split; [constructor|]. split; [repeat constructor; auto|]. split; eauto.
  - inversion A; subst. destruct h as [|z h]; simpl in B; [discriminate|]. injection B as X Y.
    destruct (IH y l h b eq_refl Y) as [l' [C' [N' [[t' T'] [h' H']]]]].
    destruct (in_dec node_dec a l') as [J|J].
    + apply in_split in J. destruct J as [l1 [l2 J]]. exists (a :: l2). split.
      * apply (chain_suffix E l1). rewrite <- J. auto.
      * split; [rewrite J in N'; clear - N'; induction l1; simpl in N'; [auto | inversion N'; auto]|].
        split; [eauto|]. destruct (exists_last (l := a :: l2)) as [k [u U]]; [discriminate|].
        exists k. rewrite U. f_equal. f_equal. rewrite H', U, app_assoc in J. apply app_inj_tail in J. symmetry; tauto.
    + exists (a :: l'). split; [subst l'; constructor; auto|]. split; [constructor; auto|]. split; [eauto|].
      exists (a :: h'). rewrite H'. auto.
Qed.
Lemma simple_paths_leads g a b : proper g -> In a (g_nodes g) -> In b (g_nodes g) ->
  (simple_paths g a b <> [] <-> leads (g_edges g) a b).
Proof.
  intros G Ia Ib. destruct (simple_paths_ok g a b G Ia Ib) as [X _]. split.
  - intros H. destruct (simple_paths g a b) as [|l r] eqn:Q; [congruence|].
    assert (I : In l (l :: r)) by (simpl; auto). apply X in I. destruct I as [C [_ [[t T] [h H']]]].
    eexists. eapply chain_route; eauto.
  - intros [k R] H. destruct (route_chain _ _ _ _ R) as [t [h [C [T _]]]].
    destruct (chain_simple _ _ C a t h b eq_refl T) as [l' L]. apply X in L. rewrite H in L. destruct L.
Qed.
Lemma simple_paths_empty {A} (l : list A) : match l with [] => false | _ => true end = true <-> l <> [].
Proof. destruct l; split; intros; congruence. Qed.

Lemma has_cycle_iff g : proper g -> (has_cycle g = true <-> exists a k, route (g_edges g) a a (S k)).
Proof.
  intros G. unfold has_cycle. rewrite existsb_exists. split.
  - intros [[a b] [I H]]. simpl in H. apply simple_paths_empty in H. destruct (proj2 G _ _ I).
    apply (simple_paths_leads g b a G) in H; auto. destruct H as [k K]. exists a, k. econstructor; eauto.
  - intros [a [k R]]. inversion R as [|x b y j I R']; subst. exists (a, b). split; auto. simpl. apply simple_paths_empty.
    destruct (proj2 G _ _ I). apply (simple_paths_leads g b a G); auto. eexists; eauto.
Qed.

Lemma longer_in l : forall p, In (fold_left longer l p) (p :: l).
Proof.
  induction l as [|q l IH]; intros p; simpl; auto. destruct (IH (longer p q)) as [<-|I]; auto.
  unfold longer. destruct (length p <? length q); auto.
Qed.
Lemma longer_max l : forall p x, In x (p :: l) -> length x <= length (fold_left longer l p).
Proof.
  induction l as [|q l IH]; intros p x I; simpl; [destruct I as [->|[]]; auto|].
  destruct I as [->|[->|I]]; [| |apply IH; simpl; auto].
  - etransitivity; [|apply IH; simpl; left; eauto]. unfold longer. destruct (Nat.ltb_spec (length x) (length q)); lia.
  - etransitivity; [|apply IH; simpl; left; eauto]. unfold longer. destruct (Nat.ltb_spec (length p) (length x)); lia.
Qed.

Lemma dag_longest_path_ok : gives_longest_path dag_longest_path.
Proof.
  intros g G. unfold dag_longest_path. split.
  - intros A. assert (H : has_cycle g = false).
    { destruct (has_cycle g) eqn:Q; auto. apply has_cycle_iff in Q; auto. destruct Q as [a [k R]]. destruct (A _ _ R). }
    rewrite H. set (all := flat_map (fun a => flat_map (simple_paths g a) (g_nodes g)) (g_nodes g)).
    exists (fold_left longer all []). split; auto. split; [unfold all; intros ->; auto|]. intros NE.
    assert (AI : forall l, In l all <-> chain (g_edges g) l /\ incl l (g_nodes g)).
    { intros l. unfold all. rewrite in_flat_map. split.
      - intros [a [Ia I]]. apply in_flat_map in I. destruct I as [b [Ib I]].
        apply (simple_paths_ok g a b G Ia Ib) in I. destruct I as [C [_ [[t ->] _]]]. split; auto. apply chain_incl; auto.
      - intros [C I]. destruct l as [|a t]; [inversion C|]. exists a. split; [apply I; simpl; auto|].
        destruct (exists_last (l := a :: t)) as [h [b B]]; [discriminate|]. apply in_flat_map. exists b.
        assert (Ib : In b (g_nodes g)) by (apply I; rewrite B; apply in_or_app; simpl; auto).
        split; auto. apply (simple_paths_ok g a b G); auto; [apply I; simpl; auto|].
        split; auto. split; [eapply chain_nodup; eauto|]. split; eauto. }
    assert (M : forall x, In x all -> length x <= length (fold_left longer all [])) by (intros; apply longer_max; simpl; auto).
    assert (I : In (fold_left longer all []) all).
    { destruct (longer_in all []) as [X|X]; auto. exfalso.
      destruct (g_nodes g) as [|a N] eqn:Q; [congruence|].
      assert (J : In [a] all) by (apply AI; split; [constructor | intros x [<-|[]]; simpl; auto]).
      apply M in J. rewrite <- X in J. simpl in J. lia. }
    apply AI in I. destruct I as [I1 I2]. split; auto. split; auto. intros q C J. apply M. apply AI. auto.
  - intros A. destruct (has_cycle g) eqn:Q; auto. exfalso. apply A. intros a k R.
    assert (has_cycle g = true) by (apply has_cycle_iff; eauto). congruence.
Qed.

Lemma both_ways_proper g : proper g -> proper (both_ways g).
Proof.
  intros [N E]. split; auto. simpl. intros a b I. apply in_app_or in I. destruct I as [I|I]; [apply E; auto|].
  apply in_map_iff in I. destruct I as [[x y] [X I]]. simpl in X. inversion X; subst. apply E in I. tauto.
Qed.
Lemma both_ways_joined g a b : leads (g_edges (both_ways g)) a b <-> joined (g_edges g) a b.
Proof.
  split.
  - intros [k R]. induction R as [|a b c k I R IH]; [apply rst_refl|]. eapply rst_trans; [|exact IH].
    simpl in I. apply in_app_or in I. destruct I as [I|I]; [apply rst_step; auto|].
    apply in_map_iff in I. destruct I as [[x y] [X I]]. simpl in X. inversion X; subst. apply rst_sym, rst_step. auto.
  - assert (sym : forall x y, leads (g_edges (both_ways g)) x y -> leads (g_edges (both_ways g)) y x).
    { intros x y [k R]. induction R as [|a' b' c k I R IH]; [apply leads_refl|]. eapply leads_trans; [exact IH|].
      apply leads_edge. simpl in *. apply in_or_app. apply in_app_or in I. destruct I as [I|I].
      - right. apply in_map_iff. exists (a', b'). auto.
      - left. apply in_map_iff in I. destruct I as [[x' y'] [X I]]. simpl in X. inversion X; subst. auto. }
    induction 1 as [x y H|x|x y H IH|x y z H1 IH1 H2 IH2].
    + apply leads_edge. simpl. apply in_or_app. auto.
    + apply leads_refl.
    + auto.
    + eapply leads_trans; eauto.
Qed.

Lemma connected_components_ok : lists_components connected_components.
Proof.
  intros g G. pose proof (both_ways_proper g G) as BG.
  assert (CI : forall v u, In v (g_nodes g) -> (In u (class g v) <-> In u (g_nodes g) /\ joined (g_edges g) v u)).
  { intros v u I. unfold class. rewrite filter_In. split; intros [X Y]; split; auto.
    - apply simple_paths_empty in Y. apply (simple_paths_leads (both_ways g) v u BG) in Y; auto. apply both_ways_joined; auto.
    - apply simple_paths_empty. apply (simple_paths_leads (both_ways g) v u BG); auto. apply both_ways_joined; auto. }
  assert (CE : forall u v, In u (g_nodes g) -> In v (g_nodes g) -> joined (g_edges g) u v -> class g u = class g v).
  { intros u v Iu Iv J. unfold class. apply filter_ext_in. intros x Ix.
    destruct (match simple_paths (both_ways g) v x with [] => false | _ => true end) eqn:Q.
    - apply simple_paths_empty in Q. apply (simple_paths_leads (both_ways g) v x BG) in Q; auto. apply both_ways_joined in Q.
      apply simple_paths_empty. apply (simple_paths_leads (both_ways g) u x BG); auto. apply both_ways_joined.
      eapply rst_trans; eauto.
    - destruct (match simple_paths (both_ways g) u x with [] => false | _ => true end) eqn:R; auto.
      apply simple_paths_empty in R. apply (simple_paths_leads (both_ways g) u x BG) in R; auto. apply both_ways_joined in R.
      rewrite <- Q. symmetry. apply simple_paths_empty. apply (simple_paths_leads (both_ways g) v x BG); auto. apply both_ways_joined.
      eapply rst_trans; [apply rst_sym; exact J | exact R]. }
  assert (CM : forall c, In c (connected_components g) <-> exists v t, In v (g_nodes g) /\ c = class g v /\ c = v :: t).
  { intros c. unfold connected_components. rewrite in_flat_map. split.
    - intros [v [I J]]. destruct (class g v) as [|u t] eqn:Q; [destruct J|].
      destruct (node_eqb u v) eqn:X; [|destruct J]. apply node_eqb_eq in X. subst u. destruct J as [<-|[]].
      exists v, t. auto.
    - intros [v [t [I [X Y]]]]. exists v. split; auto. rewrite <- X, Y, node_eqb_refl. simpl. auto. }
  split.
  - apply NoDup_Permutation; [| apply G |].
    + assert (H : forall l, NoDup l -> incl l (g_nodes g) -> NoDup (concat (flat_map (fun v => match class g v with
                     | u :: c => if node_eqb u v then [u :: c] else [] | [] => [] end) l))).
      { induction l as [|v l IH]; intros N I; simpl; [constructor|]. inversion N as [|x y NI N']; subst.
        assert (Iv : In v (g_nodes g)) by (apply I; simpl; auto).
        assert (Il : incl l (g_nodes g)) by (intros x X; apply I; simpl; auto).
        destruct (class g v) as [|u t] eqn:Q; [simpl; auto|].
        destruct (node_eqb u v) eqn:X; [|simpl; auto]. apply node_eqb_eq in X. subst u. cbn [app concat].
        apply (nodup_app (v :: t)); auto.
        - rewrite <- Q. apply NoDup_filter. apply G.
        - intros x Y Z. rewrite <- Q in Z. apply CI in Z; auto. destruct Z as [Z1 Z2].
          apply in_concat in Y. destruct Y as [c [Y1 Y2]]. apply in_flat_map in Y1. destruct Y1 as [v' [V1 V2]].
          destruct (class g v') as [|u' t'] eqn:Q'; [destruct V2|].
          destruct (node_eqb u' v') eqn:X'; [|destruct V2]. apply node_eqb_eq in X'. subst u'. destruct V2 as [<-|[]].
          rewrite <- Q' in Y2. apply CI in Y2; auto. destruct Y2 as [_ Y2].
          assert (E : class g v = class g v').
          { apply CE; auto. eapply rst_trans; [exact Z2 | apply rst_sym; auto]. }
          rewrite Q, Q' in E. inversion E; subst. auto. }
      apply H; [apply G | intros x; auto].
    + intros x. rewrite in_concat. split.
      * intros [c [I J]]. apply CM in I. destruct I as [v [t [I1 [I2 _]]]]. rewrite I2 in J. apply CI in J; tauto.
      * intros I. assert (Ix : In x (class g x)) by (apply CI; auto; split; auto; apply rst_refl).
        destruct (class g x) as [|u t] eqn:Q; [destruct Ix|].
        assert (Iu : In u (class g x)) by (rewrite Q; simpl; auto). apply CI in Iu; auto. destruct Iu as [U1 U2].
        exists (u :: t). split; auto. apply CM. exists u, t. split; auto. split; auto.
        rewrite <- Q. apply CE; auto.
  - intros c I. apply CM in I. destruct I as [v [t [I1 [I2 I3]]]]. split; [congruence|].
    intros a b A B. rewrite I2 in A. apply CI in A; auto. destruct A as [A1 A2].
    rewrite I2. rewrite CI by auto. split.
    + intros [_ J]. eapply rst_trans; [apply rst_sym; exact A2 | exact J].
    + intros J. split; auto. eapply rst_trans; eauto.
Qed.

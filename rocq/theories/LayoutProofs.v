(** Columns of a graph. *)
From Coq Require Import Bool Arith ZArith Lia Permutation Sorted List.
From Verif Require Import Base BaseProofs ExecModel Topo LayoutModel LayoutSpec.
Import ListNotations.

Lemma node_eqb_eq a b : node_eqb a b = true <-> a = b.
Proof.
  destruct a, b; simpl; try (rewrite Nat.eqb_eq); split; intros; try congruence; try discriminate.
Qed.
Lemma node_eqb_refl a : node_eqb a a = true.
Proof. apply node_eqb_eq; auto. Qed.
Lemma node_eqb_neq a b : node_eqb a b = false <-> a <> b.
Proof.
  destruct (node_eqb a b) eqn:E; split; intros; auto; try congruence.
  - apply node_eqb_eq in E. congruence.
  - intros ->. rewrite node_eqb_refl in E. discriminate.
Qed.
Lemma node_dec (a b : node) : {a = b} + {a <> b}.
Proof. destruct (node_eqb a b) eqn:E; [left; apply node_eqb_eq | right; apply node_eqb_neq]; auto. Qed.
Lemma node_memb a l : memb node_eqb a l = true <-> In a l.
Proof. apply memb_In. intros; apply node_eqb_eq. Qed.

(** ** Dictionaries *)
Section Dict.
Context {K X : Type} (eqb : K -> K -> bool).
Hypothesis eqb_eq : forall a b, eqb a b = true <-> a = b.

Lemma eqb_same a : eqb a a = true.
Proof. apply eqb_eq; auto. Qed.
Lemma eqb_other a b : a <> b -> eqb a b = false.
Proof. intros. destruct (eqb a b) eqn:E; auto. apply eqb_eq in E; congruence. Qed.

Lemma get_cons k k' (x : X) d : get eqb k ((k', x) :: d) = if eqb k' k then Some x else get eqb k d.
Proof. unfold get. simpl. destruct (eqb k' k); auto. Qed.

Lemma get_none k (d : list (K * X)) : get eqb k d = None <-> ~ In k (map fst d).
Proof.
  induction d as [|[k' x] d IH]; [split; auto|].
  rewrite get_cons. simpl. destruct (eqb k' k) eqn:E.
  - apply eqb_eq in E. split; [discriminate | intros H; exfalso; auto].
  - rewrite IH. split; intros H; [|tauto]. intros [->|H']; auto. rewrite eqb_same in E; discriminate.
Qed.

Lemma get_in k x (d : list (K * X)) : get eqb k d = Some x -> In (k, x) d.
Proof.
  induction d as [|[k' y] d IH]; [discriminate|].
  rewrite get_cons. destruct (eqb k' k) eqn:E; intros H; [|right; auto].
  apply eqb_eq in E. inversion H; subst. left; auto.
Qed.

Lemma get_some k x (d : list (K * X)) : NoDup (map fst d) -> (get eqb k d = Some x <-> In (k, x) d).
Proof.
  intros N. split; [apply get_in|].
  induction d as [|[k' y] d IH]; [intros []|].
  simpl in N. inversion N as [|a b F N']; subst. rewrite get_cons. intros [H|H].
  - inversion H; subst. rewrite eqb_same; auto.
  - rewrite eqb_other; auto. intros ->. apply F. apply (in_map fst) in H. auto.
Qed.

Lemma get_put k k' (x : X) d : get eqb k (put eqb k' x d) = if eqb k' k then Some x else get eqb k d.
Proof.
  induction d as [|[j y] d IH]; simpl.
  - rewrite get_cons. destruct (eqb k' k); auto.
  - destruct (eqb j k') eqn:E.
    + apply eqb_eq in E. subst. rewrite !get_cons. destruct (eqb k' k); auto.
    + rewrite !get_cons, IH. destruct (eqb j k) eqn:F; auto.
      apply eqb_eq in F. subst. destruct (eqb k' k) eqn:G; auto. apply eqb_eq in G. subst.
      rewrite eqb_same in E; discriminate.
Qed.

Lemma put_fresh k (x : X) d : ~ In k (map fst d) -> put eqb k x d = d ++ [(k, x)].
Proof.
  induction d as [|[j y] d IH]; simpl; intros H; auto.
  rewrite eqb_other by tauto. rewrite IH by tauto. auto.
Qed.

Lemma put_keys k (x : X) d : In k (map fst d) -> map fst (put eqb k x d) = map fst d.
Proof.
  induction d as [|[j y] d IH]; simpl; [tauto|]. intros [->|H].
  - rewrite eqb_same; auto.
  - destruct (eqb j k) eqn:E; simpl; [apply eqb_eq in E; subst; auto|]. f_equal; auto.
Qed.

Lemma put_last k (x y : X) d : ~ In k (map fst d) -> put eqb k y (d ++ [(k, x)]) = d ++ [(k, y)].
Proof.
  induction d as [|[j z] d IH]; simpl; intros H; [rewrite eqb_same; auto|].
  rewrite eqb_other by tauto. f_equal; auto.
Qed.

Lemma get_last k (x : X) d : ~ In k (map fst d) -> get eqb k (d ++ [(k, x)]) = Some x.
Proof.
  induction d as [|[j z] d IH]; intros H.
  - simpl. rewrite get_cons, eqb_same. auto.
  - simpl in H. change (((j, z) :: d) ++ [(k, x)]) with ((j, z) :: (d ++ [(k, x)])). rewrite get_cons, eqb_other by tauto. tauto.
Qed.

Lemma get_before k k' (x : X) d : k' <> k -> get eqb k (d ++ [(k', x)]) = get eqb k d.
Proof.
  induction d as [|[j z] d IH]; intros H.
  - simpl. rewrite get_cons, eqb_other; auto.
  - change (((j, z) :: d) ++ [(k', x)]) with ((j, z) :: (d ++ [(k', x)])). rewrite !get_cons, IH; auto.
Qed.
End Dict.

Lemma last_error_snoc {A} (l : list A) x : last_error (l ++ [x]) = Some x.
Proof. unfold last_error. rewrite rev_unit. auto. Qed.
Lemma last_error_inv {A} (l : list A) x : last_error l = Some x -> exists h, l = h ++ [x].
Proof.
  unfold last_error. intros H. exists (rev (tl (rev l))). rewrite <- (rev_involutive l) at 1.
  destruct (rev l); [discriminate|]. simpl in H. inversion H; subst. simpl. auto.
Qed.
Lemma last_error_none {A} (l : list A) : last_error l = None -> l = [].
Proof.
  unfold last_error. intros H. rewrite <- (rev_involutive l). destruct (rev l); auto. discriminate.
Qed.

Lemma before_split {A} l1 (n : A) l2 a : NoDup (l1 ++ n :: l2) -> (before a n (l1 ++ n :: l2) <-> In a l1).
Proof.
  intros ND. split; intros H.
  - destruct (before_nth _ _ _ ND H) as [i [j [L [I J]]]].
    assert (K : nth_error (l1 ++ n :: l2) (length l1) = Some n) by (rewrite nth_error_app2, Nat.sub_diag by lia; auto).
    assert (j = length l1) by (rewrite NoDup_nth_error in ND; apply ND; [apply nth_error_Some; congruence|congruence]).
    subst j. rewrite nth_error_app1 in I by lia. eapply nth_error_In; eauto.
  - apply before_not; simpl; auto.
Qed.

Lemma nodup_app {A} (l r : list A) : NoDup l -> NoDup r -> (forall x, In x r -> ~ In x l) -> NoDup (l ++ r).
Proof.
  intros Q R. induction Q as [|x l NI Q IH]; simpl; intros D; auto. constructor.
  - rewrite in_app_iff. intros [X|X]; auto. apply (D _ X). auto.
  - apply IH. intros y Y Z. apply (D _ Y). auto.
Qed.

(** ** Routes and chains *)
Section Routes.
Variable E : list (node * node).

Lemma route_app a b c j k : route E a b j -> route E b c k -> route E a c (j + k).
Proof. induction 1; simpl; auto. intros. econstructor; eauto. Qed.
Lemma leads_trans a b c : leads E a b -> leads E b c -> leads E a c.
Proof. intros [j J] [k K]. exists (j + k). eapply route_app; eauto. Qed.
Lemma leads_edge a b : In (a, b) E -> leads E a b.
Proof. exists 1. econstructor; eauto. constructor. Qed.
Lemma leads_refl a : leads E a a.
Proof. exists 0. constructor. Qed.
Lemma route_0 a b : route E a b 0 -> a = b.
Proof. inversion 1; auto. Qed.
Lemma route_last a c k : route E a c (S k) -> exists b, route E a b k /\ In (b, c) E.
Proof.
  remember (S k) as n eqn:N. intros H. revert k N. induction H as [|a b c j I R IH]; intros k N; [discriminate|].
  inversion N; subst j. destruct k.
  - apply route_0 in R. subst. exists a. split; [constructor | auto].
  - destruct (IH k eq_refl) as [x [X Y]]. exists x. split; auto. econstructor; eauto.
Qed.

Lemma chain_tl a b l : chain E (a :: b :: l) -> In (a, b) E /\ chain E (b :: l).
Proof. inversion 1; auto. Qed.

Lemma chain_route l : chain E l -> forall a t h b, l = a :: t -> l = h ++ [b] -> route E a b (length t).
Proof.
  induction 1 as [x|x y l I C IH]; intros a t h b A B.
  - inversion A; subst. destruct h as [|z h]; simpl in B.
    + inversion B. constructor.
    + inversion B as [[Z W]]. destruct h; discriminate.
  - inversion A; subst. destruct h as [|z h]; simpl in B; [discriminate|].
    injection B as Z W. simpl. econstructor; [exact I|]. apply (IH y l h b eq_refl W).
Qed.

Lemma route_chain a b k : route E a b k -> exists t h, chain E (a :: t) /\ a :: t = h ++ [b] /\ length t = k.
Proof.
  induction 1 as [a|a b c k I R IH].
  - exists [], []. repeat split. constructor.
  - destruct IH as [t [h [C [D L]]]]. exists (b :: t), (a :: h). repeat split.
    + constructor; auto.
    + simpl. rewrite <- D. auto.
    + simpl. auto.
Qed.

Lemma chain_in t : forall a x, chain E (a :: t) -> In x t -> exists k, route E a x (S k).
Proof.
  induction t as [|b t IH]; intros a x C I; [destruct I|].
  apply chain_tl in C. destruct C as [F C]. destruct I as [->|I].
  - exists 0. econstructor; eauto. constructor.
  - destruct (IH _ _ C I) as [k K]. exists (S k). econstructor; eauto.
Qed.

Lemma chain_nodup l : acyclic E -> chain E l -> NoDup l.
Proof.
  intros A. induction 1 as [a|a b l I C IH]; [repeat constructor; auto|].
  constructor; auto. intros J. destruct (chain_in (b :: l) a a) as [k K]; auto.
  - constructor; auto.
  - exact (A _ _ K).
Qed.

Lemma chain_app l1 : forall n t, chain E (l1 ++ [n]) -> chain E (n :: t) -> chain E (l1 ++ n :: t).
Proof.
  induction l1 as [|a l1 IH]; intros n t C D; auto.
  destruct l1 as [|b l1]; simpl in *.
  - apply chain_tl in C. constructor; tauto.
  - apply chain_tl in C. destruct C. constructor; auto.
Qed.
Lemma chain_prefix l1 : forall n t, chain E (l1 ++ n :: t) -> chain E (l1 ++ [n]).
Proof.
  induction l1 as [|a l1 IH]; intros n t C; [constructor|].
  destruct l1 as [|b l1]; simpl in *.
  - apply chain_tl in C. constructor; [tauto|constructor].
  - apply chain_tl in C. destruct C. constructor; eauto.
Qed.
Lemma chain_suffix l1 : forall n t, chain E (l1 ++ n :: t) -> chain E (n :: t).
Proof.
  induction l1 as [|a l1 IH]; intros n t C; auto.
  apply IH. destruct l1; simpl in *; apply chain_tl in C; tauto.
Qed.

Lemma leads_strict a b : leads E a b -> a <> b -> exists k, route E a b (S k).
Proof. intros [[|k] K] N; [apply route_0 in K; congruence | eauto]. Qed.
Lemma no_return : acyclic E -> forall a b, leads E a b -> leads E b a -> a = b.
Proof.
  intros A a b F G. destruct (node_dec a b) as [|N]; auto.
  destruct (leads_strict _ _ F N) as [j J]. destruct G as [k K].
  exfalso. apply (A a (j + k)). replace (S (j + k)) with (S j + k) by lia. eapply route_app; eauto.
Qed.
End Routes.

(** ** The columns *)
Section Columns.
Variable g : graph.
Hypothesis G : proper g.
Hypothesis A : acyclic (g_edges g).
Variable ssp : graph -> node -> node -> list (list node).
Hypothesis S1 : lists_simple_paths ssp.
Notation N := (g_nodes g).
Notation E := (g_edges g).

Lemma leads_node a b : leads E a b -> In a N -> In b N.
Proof. intros [k R]. induction R as [|a b c k I R IH]; auto. intros _. apply IH. apply (proj2 G) in I; tauto. Qed.
Lemma leads_node' a b : leads E a b -> In b N -> In a N.
Proof. intros [k R]. induction R as [|a b c k I R IH]; auto. intros _. apply (proj2 G) in I; tauto. Qed.
Lemma chain_incl a t : chain E (a :: t) -> In a N -> incl (a :: t) N.
Proof.
  intros C I x [->|J]; auto. destruct (chain_in E t a x C J) as [k K]. eapply leads_node; [eexists; eauto | auto].
Qed.

Lemma sorted_last (l : list (list node)) h q x : StronglySorted (fun p q => length p <= length q) l ->
  l = h ++ [q] -> In x l -> length x <= length q.
Proof.
  intros O ->. induction h as [|y h IH]; simpl in *.
  - intros [->|[]]; auto.
  - inversion O as [|a b O' F]; subst. intros [->|I]; [|apply IH; auto].
    rewrite Forall_forall in F. apply F. apply in_or_app; right; simpl; auto.
Qed.

Lemma glp_some a b q : In a N -> In b N -> get_longest_path ssp g a b = Some q ->
  exists t, q = a :: t /\ farthest E a b (length t).
Proof.
  intros Ia Ib H. unfold get_longest_path in H. destruct (last_error_inv _ _ H) as [h Hh].
  destruct (S1 g a b G Ia Ib) as [S2 S3].
  assert (J : In q (ssp g a b)) by (rewrite Hh; apply in_or_app; right; simpl; auto).
  apply S2 in J. destruct J as [C [_ [[t T] [h' U]]]]. exists t. split; auto. split.
  - eapply chain_route; eauto.
  - intros j R. destruct (route_chain _ _ _ _ R) as [t' [h'' [C' [D' L']]]].
    assert (J : In (a :: t') (ssp g a b)).
    { apply S2. repeat split; eauto. apply (chain_nodup E); auto. }
    pose proof (sorted_last _ _ _ _ S3 Hh J) as L. subst q. simpl in L. lia.
Qed.

Lemma glp_none a b : In a N -> In b N -> get_longest_path ssp g a b = None -> ~ leads E a b.
Proof.
  intros Ia Ib H [k R]. unfold get_longest_path in H. apply last_error_none in H.
  destruct (route_chain _ _ _ _ R) as [t' [h'' [C' [D' L']]]].
  destruct (S1 g a b G Ia Ib) as [S2 S3].
  assert (J : In (a :: t') (ssp g a b)).
  { apply S2. repeat split; eauto. apply (chain_nodup E); auto. }
  rewrite H in J. destruct J.
Qed.

Lemma glp_leads a b : In a N -> In b N -> leads E a b -> exists t, get_longest_path ssp g a b = Some (a :: t) /\ farthest E a b (length t).
Proof.
  intros Ia Ib L. destruct (get_longest_path ssp g a b) as [q|] eqn:Q.
  - destruct (glp_some _ _ _ Ia Ib Q) as [t [-> F]]. eauto.
  - exfalso. exact (glp_none _ _ Ia Ib Q L).
Qed.

Lemma leads_dec a b : In a N -> In b N -> {leads E a b} + {~ leads E a b}.
Proof.
  intros Ia Ib. destruct (get_longest_path ssp g a b) as [q|] eqn:Q.
  - left. destruct (glp_some _ _ _ Ia Ib Q) as [t [_ F]]. eexists; apply F.
  - right. exact (glp_none _ _ Ia Ib Q).
Qed.

Variable P : list node.
Variable e : node.
Hypothesis HP : longest_path g P.
Hypothesis He : exists h, P = h ++ [e].

Lemma P_nodup : NoDup P.
Proof. eapply chain_nodup; eauto. apply HP. Qed.
Lemma P_in n : In n P -> In n N.
Proof. apply (proj1 (proj2 HP)). Qed.
Lemma e_in : In e N.
Proof. destruct He as [h Hh]. apply P_in. rewrite Hh. apply in_or_app; simpl; auto. Qed.

Lemma P_far l1 n l2 : P = l1 ++ n :: l2 -> farthest E n e (length l2).
Proof.
  intros Q. destruct HP as [C [I L]]. destruct He as [h Hh]. split.
  - assert (C2 : chain E (n :: l2)) by (apply (chain_suffix E l1); rewrite <- Q; auto).
    destruct (exists_last (l := n :: l2)) as [l3 [x X]]; [discriminate|].
    assert (x = e).
    { rewrite Hh, X in Q. rewrite app_assoc in Q. apply app_inj_tail in Q. symmetry; tauto. }
    subst x. exact (chain_route E _ C2 n l2 l3 e eq_refl X).
  - intros j R. destruct (route_chain _ _ _ _ R) as [t [h' [C' [D' L']]]].
    assert (C3 : chain E (l1 ++ n :: t)).
    { apply chain_app; auto. apply (chain_prefix E l1 n l2). rewrite <- Q. auto. }
    assert (I3 : incl (l1 ++ n :: t) N).
    { intros x X. apply in_app_or in X. destruct X as [X|X].
      - apply I. rewrite Q. apply in_or_app; auto.
      - apply (chain_incl n t); auto. apply I. rewrite Q. apply in_or_app; simpl; auto. }
    pose proof (L _ C3 I3) as L3. rewrite Q, !app_length in L3. simpl in L3. lia.
Qed.
Lemma P_leads n : In n P -> leads E n e.
Proof. intros I. apply in_split in I. destruct I as [l1 [l2 Q]]. eexists. apply (P_far _ _ _ Q). Qed.

Lemma far_bound n k : In n N -> route E n e k -> S k <= length P.
Proof.
  intros I R. destruct (route_chain _ _ _ _ R) as [t [h' [C' [D' L']]]].
  pose proof (proj2 (proj2 HP) _ C' (chain_incl _ _ C' I)) as L. simpl in L. lia.
Qed.

(** *** The first loop *)
Lemma first_loop : exists cols,
  foldM (fun columns n => let* i := of_option ValueError (index_of node_eqb n P) in
                          Ok (put node_eqb n (Z.of_nat i) columns)) P [] = Ok cols
  /\ map fst cols = P
  /\ forall n c, In (n, c) cols -> exists k, farthest E n e k /\ (c = Z.of_nat (length P) - 1 - Z.of_nat k)%Z.
Proof.
  pose proof P_nodup as ND.
  assert (Go : forall l2 l1 cols, P = l1 ++ l2 -> map fst cols = l1 ->
    (forall n c, In (n, c) cols -> exists k, farthest E n e k /\ (c = Z.of_nat (length P) - 1 - Z.of_nat k)%Z) ->
    exists cols', foldM (fun columns n => let* i := of_option ValueError (index_of node_eqb n P) in
                          Ok (put node_eqb n (Z.of_nat i) columns)) l2 cols = Ok cols'
     /\ map fst cols' = P
     /\ forall n c, In (n, c) cols' -> exists k, farthest E n e k /\ (c = Z.of_nat (length P) - 1 - Z.of_nat k)%Z).
  { induction l2 as [|n l2 IH]; intros l1 cols Q K V.
    - exists cols. rewrite app_nil_r in Q. subst. simpl. repeat split; auto.
    - cbn [foldM].
      assert (X : index_of node_eqb n P = Some (length l1)).
      { apply index_of_nodup; auto. - intros; apply node_eqb_eq.
        - rewrite Q, nth_error_app2, Nat.sub_diag by lia. auto. }
      rewrite X. cbn [bind of_option].
      assert (F : ~ In n (map fst cols)).
      { rewrite K. intros I. rewrite Q in ND. apply NoDup_remove_2 in ND. apply ND. apply in_or_app; auto. }
      rewrite (put_fresh node_eqb node_eqb_eq) by auto.
      apply (IH (l1 ++ [n])).
      + rewrite <- app_assoc. auto.
      + rewrite map_app, K. auto.
      + intros m c I. apply in_app_or in I. destruct I as [I|[I|[]]]; [apply V; auto|].
        inversion I; subst m c. exists (length l2). split; [apply (P_far _ _ _ Q)|].
        rewrite Q at 1. rewrite app_length. simpl. lia. }
  apply (Go P [] []); auto. intros n c [].
Qed.

(** *** The inner loop *)
Section Push.
Variable n : node.
Variable cols : list (node * Z).
Hypothesis F : ~ In n (map fst cols).
Definition state (cur : option Z) : list (node * Z) :=
  match cur with None => cols | Some c => cols ++ [(n, c)] end.
Definition best (cur : option Z) (k : Z) : option Z :=
  match cur with None => Some k | Some c => Some (Z.max c k) end.

Lemma get_other o cur : o <> n -> get node_eqb o (state cur) = get node_eqb o cols.
Proof. intros H. destruct cur; simpl; auto. apply (get_before node_eqb node_eqb_eq). auto. Qed.
Lemma get_own cur : get node_eqb n (state cur) = cur.
Proof.
  destruct cur; simpl; [apply (get_last node_eqb node_eqb_eq); auto|].
  apply (get_none node_eqb node_eqb_eq). auto.
Qed.
Lemma put_own cur k : put node_eqb n k (state cur) = state (Some k).
Proof. destruct cur; simpl; [apply (put_last node_eqb node_eqb_eq) | apply (put_fresh node_eqb node_eqb_eq)]; auto. Qed.

Lemma push_other o t cur : o <> n ->
  push n (state cur) (o :: t) =
  match get node_eqb o cols with
  | Some c => Ok (state (best cur (c + Z.of_nat (length t))))
  | None => Err KeyError
  end.
Proof.
  intros H. unfold push. cbn [hd_error of_option bind]. rewrite (get_other _ _ H).
  destruct (get node_eqb o cols) as [c|]; cbn [of_option bind]; auto.
  rewrite get_own, put_own. replace (c + Z.of_nat (length (o :: t)) - 1)%Z with (c + Z.of_nat (length t))%Z by (simpl length; lia).
  destruct cur as [k|]; simpl; auto. destruct (Z.ltb_spec k (c + Z.of_nat (length t))).
  - rewrite Z.max_r by lia. auto.
  - rewrite Z.max_l by lia. auto.
Qed.
Lemma push_own cur : push n (state cur) [n] = match cur with Some c => Ok (state cur) | None => Err KeyError end.
Proof.
  unfold push. cbn [hd_error of_option bind]. rewrite get_own. destruct cur as [c|]; cbn [of_option bind]; auto.
  rewrite Z.ltb_irrefl || (replace (c + Z.of_nat (length [n]) - 1)%Z with c by (simpl; lia); rewrite Z.ltb_irrefl). auto.
Qed.

(** The paths: each starts where it starts, the one from [n] is [n]. *)
Definition fair (q : list node) : Prop := exists o t, q = o :: t /\ (o = n -> t = []).

Lemma pushes qs : Forall fair qs -> forall c0,
  (exists c, foldM (push n) qs (state (Some c0)) = Ok (state (Some c))
     /\ (forall o t, In (o :: t) qs -> o <> n -> exists co, get node_eqb o cols = Some co /\ (co + Z.of_nat (length t) <= c)%Z)
     /\ (c0 <= c)%Z
     /\ (c = c0 \/ exists o t co, In (o :: t) qs /\ o <> n /\ get node_eqb o cols = Some co /\ c = (co + Z.of_nat (length t))%Z))
  \/ (foldM (push n) qs (state (Some c0)) = Err KeyError
      /\ exists o t, In (o :: t) qs /\ o <> n /\ get node_eqb o cols = None).
Proof.
  induction 1 as [|q qs [o [t [-> O]]] Fs IH]; intros c0.
  - left. exists c0. simpl. repeat split; auto; try lia; try (intros ? ? []; fail).
  - cbn [foldM]. destruct (node_dec o n) as [->|Q].
    + rewrite (O eq_refl). rewrite push_own. cbn [bind]. destruct (IH c0) as [[c [X [Y [Z W]]]]|[X [o' [t' [Y Z]]]]].
      * left. exists c. rewrite X. repeat split; auto.
        -- intros o' t' [I|I] J; [inversion I; congruence | auto].
        -- destruct W as [W|[o' [t' [co [W1 W2]]]]]; auto. right. exists o', t', co. split; [right; auto | auto].
      * right. rewrite X. split; auto. exists o', t'. split; [right; auto | auto].
    + rewrite (push_other _ _ _ Q). destruct (get node_eqb o cols) as [co|] eqn:C; cbn [bind best].
      * destruct (IH (Z.max c0 (co + Z.of_nat (length t)))) as [[c [X [Y [Z W]]]]|[X [o' [t' [Y Z]]]]].
        -- left. exists c. rewrite X. repeat split; auto; try lia.
           ++ intros o' t' [I|I] J; [inversion I; subst; exists co; split; auto; lia | auto].
           ++ destruct W as [W|[o' [t' [c' [W1 W2]]]]].
              ** destruct (Z.max_spec c0 (co + Z.of_nat (length t))) as [[_ M]|[_ M]]; rewrite M in W; auto.
                 right. exists o, t, co. split; [left; auto | auto].
              ** right. exists o', t', c'. split; [right; auto | auto].
        -- right. rewrite X. split; auto. exists o', t'. split; [right; auto | auto].
      * right. split; auto. exists o, t. split; [left; auto | auto].
Qed.
End Push.

(** *** One node of the second loop *)
Definition paths_of (n : node) (l : list node) : list (list node) :=
  flat_map (fun o => match get_longest_path ssp g o n with Some p => [p] | None => [] end) l.
Lemma paths_of_eq n l : get_paths_from_to ssp g l [n] = paths_of n l.
Proof.
  unfold get_paths_from_to, paths_of. apply flat_map_ext. intros o. simpl. rewrite app_nil_r. auto.
Qed.
Lemma paths_of_app n l1 l2 : paths_of n (l1 ++ l2) = paths_of n l1 ++ paths_of n l2.
Proof. apply flat_map_app. Qed.
Lemma in_paths n l q : In n N -> incl l N ->
  In q (paths_of n l) -> exists o t, q = o :: t /\ In o l /\ farthest E o n (length t).
Proof.
  intros In' I J. apply in_flat_map in J. destruct J as [o [O J]].
  destruct (get_longest_path ssp g o n) as [p|] eqn:Q; [|destruct J]. destruct J as [->|[]].
  destruct (glp_some _ _ _ (I _ O) In' Q) as [t [-> T]]. eauto.
Qed.
Lemma paths_in n l o : In n N -> incl l N -> In o l -> leads E o n ->
  exists t, In (o :: t) (paths_of n l) /\ farthest E o n (length t).
Proof.
  intros In' I O L. destruct (glp_leads _ _ (I _ O) In' L) as [t [Q T]]. exists t. split; auto.
  apply in_flat_map. exists o. rewrite Q. simpl. auto.
Qed.
Lemma far_self n (t : list node) : farthest E n n (length t) -> t = [].
Proof. intros [R _]. destruct t; auto. exfalso. exact (A _ _ R). Qed.
Lemma paths_fair n l : In n N -> incl l N -> Forall (fair n) (paths_of n l).
Proof.
  intros In' I. apply Forall_forall. intros q J. destruct (in_paths _ _ _ In' I J) as [o [t [-> [O T]]]].
  exists o, t. split; auto. intros ->. apply far_self with n; auto.
Qed.
Lemma glp_self n : In n N -> get_longest_path ssp g n n = Some [n].
Proof.
  intros I. destruct (glp_leads _ _ I I (leads_refl _ n)) as [t [Q T]]. rewrite Q.
  apply far_self in T. subst. auto.
Qed.

Lemma place_other n cols : In n N -> ~ leads E n e -> ~ In n (map fst cols) ->
  (exists c, place ssp g P e cols n = Ok (cols ++ [(n, c)])
     /\ (exists a, a <> n /\ leads E a n /\ before a n N)
     /\ (forall a, a <> n -> leads E a n -> exists ca k, get node_eqb a cols = Some ca /\ farthest E a n k /\ (ca + Z.of_nat k <= c)%Z)
     /\ exists a ca k, a <> n /\ get node_eqb a cols = Some ca /\ farthest E a n k /\ c = (ca + Z.of_nat k)%Z)
  \/ (place ssp g P e cols n = Err KeyError
      /\ ((~ exists a, a <> n /\ leads E a n /\ before a n N)
          \/ exists a, a <> n /\ leads E a n /\ get node_eqb a cols = None)).
Proof.
  intros I NL F. unfold place.
  destruct (get_longest_path ssp g n e) as [q|] eqn:Q.
  { destruct (glp_some _ _ _ I e_in Q) as [t [_ T]]. destruct NL. eexists; apply T. }
  rewrite paths_of_eq. clear Q.
  destruct (in_split _ _ I) as [l1 [l2 L]].
  assert (ND : NoDup N) by apply G.
  assert (I1 : incl l1 N) by (rewrite L; intros x X; apply in_or_app; auto).
  assert (I2 : incl l2 N) by (rewrite L; intros x X; apply in_or_app; simpl; auto).
  assert (Q1 : paths_of n N = paths_of n l1 ++ [n] :: paths_of n l2).
  { rewrite L at 1. rewrite paths_of_app. f_equal. unfold paths_of at 1. simpl.
    rewrite (glp_self n I). simpl. auto. }
  assert (B1 : forall a, before a n N <-> In a l1) by (intros; rewrite L; apply before_split; rewrite <- L; auto).
  assert (NI : forall a, In a l1 -> a <> n).
  { intros a J ->. rewrite L in ND. apply NoDup_remove_2 in ND. apply ND. apply in_or_app; auto. }
  rewrite Q1. destruct (paths_of n l1) as [|q qs] eqn:Q2.
  - right. split.
    + cbn [app foldM]. change cols with (state n cols None) at 1. rewrite push_own by auto. auto.
    + left. intros [a [X [Y Z]]]. apply B1 in Z. destruct (paths_in n l1 a I I1 Z Y) as [t [T _]].
      rewrite Q2 in T. destruct T.
  - assert (J : In q (paths_of n l1)) by (rewrite Q2; simpl; auto).
    destruct (in_paths _ _ _ I I1 J) as [o [t [-> [O T]]]].
    assert (all : forall a, a <> n -> leads E a n -> exists t', In (a :: t') ((o :: t) :: (qs ++ [n] :: paths_of n l2)) /\ farthest E a n (length t')).
    { intros a X Y. assert (In a N) by (eapply leads_node'; eauto).
      destruct (paths_in n N a I (fun x h => h) H Y) as [t' [U V]]. rewrite Q1 in U. eauto. }
    assert (back : forall a t', In (a :: t') ((o :: t) :: (qs ++ [n] :: paths_of n l2)) -> In a N /\ farthest E a n (length t')).
    { intros a t' X. change (In (a :: t') (((o :: t) :: qs) ++ [n] :: paths_of n l2)) in X. rewrite <- Q1 in X.
      destruct (in_paths n N _ I (fun x h => h) X) as [a' [t'' [U V]]]. inversion U; subst. auto. }
    assert (fr : Forall (fair n) (qs ++ [n] :: paths_of n l2)).
    { pose proof (paths_fair n N I (fun x h => h)) as W. rewrite Q1 in W. inversion W; auto. }
    cbn [app foldM]. change cols with (state n cols None) at 1 5. rewrite push_other by auto.
    destruct (get node_eqb o cols) as [co|] eqn:C.
    + cbn [bind best]. destruct (pushes n cols F _ fr (co + Z.of_nat (length t))%Z) as [[c [X [Y [Z W]]]]|[X [o' [t' [Y [Z W]]]]]].
      * left. exists c. split; [exact X|]. repeat split.
        -- exists o. split; auto. split; [eexists; apply T | apply B1; auto].
        -- intros a U V. destruct (all a U V) as [t' [[R|R] S]].
           ++ inversion R; subst. exists co, (length t'). auto.
           ++ destruct (Y _ _ R U) as [ca [R1 R2]]. exists ca, (length t'). auto.
        -- destruct W as [->|[a [t' [ca [W1 [W2 [W3 ->]]]]]]].
           ++ exists o, co, (length t). repeat split; auto; apply T.
           ++ exists a, ca, (length t'). destruct (back a t' (or_intror W1)) as [_ U]. repeat split; auto; apply U.
      * right. split; auto. right. exists o'. destruct (back o' t' (or_intror Y)) as [_ U]. repeat split; auto. eexists; apply U.
    + right. split; auto. right. exists o. repeat split; auto. eexists; apply T.
Qed.

Lemma place_leads n cols : In n N -> leads E n e -> ~ In n (map fst cols) ->
  exists k, place ssp g P e cols n = Ok (cols ++ [(n, Z.of_nat (length P) - 1 - Z.of_nat k)%Z]) /\ farthest E n e k.
Proof.
  intros I L F. unfold place. destruct (glp_leads _ _ I e_in L) as [t [Q T]]. rewrite Q.
  exists (length t). split; auto. rewrite (put_fresh node_eqb node_eqb_eq) by auto.
  do 4 f_equal. simpl length. lia.
Qed.

(** *** The second loop *)
Definition fit (cols : list (node * Z)) : Prop :=
  NoDup (map fst cols)
  /\ (forall n c, In (n, c) cols -> leads E n e ->
        exists k, farthest E n e k /\ (c = Z.of_nat (length P) - 1 - Z.of_nat k)%Z)
  /\ (forall n c, In (n, c) cols -> ~ leads E n e ->
        (exists m, In (m, n) E /\ In (m, c - 1)%Z cols)
        /\ forall m, In (m, n) E -> exists k, In (m, k) cols /\ (k < c)%Z).

Lemma fit_same cols n c c' : fit cols -> In (n, c) cols -> In (n, c') cols -> c = c'.
Proof.
  intros [D _] I J. apply (get_some node_eqb node_eqb_eq) in I, J; auto. congruence.
Qed.

Lemma far_same a b j k : farthest E a b j -> farthest E a b k -> j = k.
Proof. intros [R M] [R' M']. apply M in R'. apply M' in R. lia. Qed.

Lemma fit_edge cols u v cu cv : fit cols -> In (u, v) E -> In (u, cu) cols -> In (v, cv) cols -> In v N -> (cu < cv)%Z.
Proof.
  intros H I U V J. destruct (leads_dec v e J e_in) as [L|L].
  - destruct (proj1 (proj2 H) _ _ V L) as [k [K ->]].
    destruct (proj1 (proj2 H) _ _ U) as [j [J' ->]]; [eapply leads_trans; [eapply leads_edge; eauto | auto]|].
    assert (S k <= j). { apply J'. econstructor; eauto. apply K. } lia.
  - destruct (proj2 (proj2 H) _ _ V L) as [_ W]. destruct (W _ I) as [k [K K']].
    rewrite (fit_same _ _ _ _ H U K). auto.
Qed.

Lemma fit_route cols a b k : fit cols -> route E a b k ->
  forall ca cb, In (a, ca) cols -> In (b, cb) cols -> In a N ->
  (forall x, leads E a x -> leads E x b -> In x (map fst cols)) -> (ca + Z.of_nat k <= cb)%Z.
Proof.
  intros H R. induction R as [a|a b c k I R IH]; intros ca cb U V J D.
  - rewrite (fit_same _ _ _ _ H U V). lia.
  - assert (W : In b (map fst cols)) by (apply D; [apply leads_edge; auto | eexists; eauto]).
    apply in_map_iff in W. destruct W as [[b' cb'] [X W]]. simpl in X. subst b'.
    assert (Jb : In b N) by (apply (proj2 G) in I; tauto).
    pose proof (fit_edge _ _ _ _ _ H I U W Jb).
    assert (cb' + Z.of_nat k <= cb)%Z. { apply IH; auto. intros x X Y. apply D; auto. eapply leads_trans; [apply leads_edge; eauto | auto]. }
    lia.
Qed.

Lemma fit_more cols n c : fit cols -> In n N -> ~ In n (map fst cols) ->
  (leads E n e -> exists k, farthest E n e k /\ (c = Z.of_nat (length P) - 1 - Z.of_nat k)%Z) ->
  (~ leads E n e ->
     (exists m, In (m, n) E /\ In (m, c - 1)%Z cols) /\ forall m, In (m, n) E -> exists k, In (m, k) cols /\ (k < c)%Z) ->
  fit (cols ++ [(n, c)]).
Proof.
  intros [D [X Y]] I F U V. split; [|split].
  - rewrite map_app. simpl. apply Permutation_NoDup with (n :: map fst cols); [|constructor; auto].
    apply Permutation_cons_append.
  - intros m k J L. apply in_app_or in J. destruct J as [J|[J|[]]]; [apply X; auto|]. inversion J; subst; auto.
  - intros m k J L. apply in_app_or in J. destruct J as [J|[J|[]]].
    + destruct (Y _ _ J L) as [[p [P1 P2]] Q]. split.
      * exists p. split; auto. apply in_or_app; auto.
      * intros p' R. destruct (Q _ R) as [k' [K K']]. exists k'. split; auto. apply in_or_app; auto.
    + inversion J; subst. destruct (V L) as [[p [P1 P2]] Q]. split.
      * exists p. split; auto. apply in_or_app; auto.
      * intros p' R. destruct (Q _ R) as [k' [K K']]. exists k'. split; auto. apply in_or_app; auto.
Qed.

Definition rest : list node := filter (fun n => negb (memb node_eqb n P)) N.
Lemma in_rest n : In n rest <-> In n N /\ ~ In n P.
Proof.
  unfold rest. rewrite filter_In, negb_true_iff. split; intros [X Y]; split; auto.
  - intros Z. apply node_memb in Z. congruence.
  - destruct (memb node_eqb n P) eqn:Z; auto. apply node_memb in Z. tauto.
Qed.

Definition good (n : node) : Prop := ~ leads E n e ->
  (exists a, a <> n /\ leads E a n /\ before a n N)
  /\ (forall a, a <> n -> leads E a n -> In a P \/ before a n N).

Lemma earlier pre n l a : rest = pre ++ n :: l -> In a N -> ~ In a P -> (before a n N <-> In a pre).
Proof.
  intros R I J. assert (ND : NoDup N) by apply G.
  assert (NR : NoDup rest) by (apply NoDup_filter; auto).
  assert (Rn : In n rest) by (rewrite R; apply in_or_app; simpl; auto).
  assert (Ra : In a rest) by (apply in_rest; auto).
  pose proof (fun x (h : In x rest) => proj2 (proj1 (filter_In _ _ _) h)) as FT. cbn beta in FT.
  rewrite <- (before_split pre n l a); [|rewrite <- R; auto]. rewrite <- R.
  split; intros H.
  - apply before_filter; auto; apply FT; auto.
  - destruct (in_split _ _ (proj1 (proj1 (in_rest n) Rn))) as [l1 [l2 L]].
    rewrite L. apply before_split; [rewrite <- L; auto|].
    assert (X : In a (l1 ++ n :: l2)) by (rewrite <- L; auto).
    apply in_app_or in X. destruct X as [X|[X|X]]; auto; exfalso.
    + subst. exact (before_irrefl _ _ NR H).
    + assert (Y : before n a N).
      { rewrite L. replace (l1 ++ n :: l2) with ((l1 ++ [n]) ++ l2) by (rewrite <- app_assoc; auto).
        apply before_not; [rewrite <- app_assoc; simpl; rewrite <- L; auto | apply in_or_app; simpl; auto | auto]. }
      apply (before_filter (fun n => negb (memb node_eqb n P))) in Y; auto.
      apply (before_irrefl rest a NR). eapply before_trans; eauto.
Qed.

Lemma second_loop l : forall pre cols, rest = pre ++ l -> map fst cols = P ++ pre -> fit cols ->
  (exists cols', foldM (place ssp g P e) l cols = Ok cols' /\ map fst cols' = P ++ rest /\ fit cols'
      /\ (exists more, cols' = cols ++ more) /\ forall n, In n l -> good n)
  \/ (foldM (place ssp g P e) l cols = Err KeyError /\ exists n, In n l /\ ~ good n).
Proof.
  induction l as [|n l IH]; intros pre cols R K H.
  - left. exists cols. simpl. rewrite app_nil_r in R. rewrite R. split; auto. split; auto. split; auto. split.
    + exists []. rewrite app_nil_r; auto.
    + intros n [].
  - assert (Rn : In n rest) by (rewrite R; apply in_or_app; simpl; auto).
    pose proof (proj1 (in_rest n) Rn) as [In' NP].
    assert (NR : NoDup rest) by (apply NoDup_filter; apply G).
    assert (F : ~ In n (map fst cols)).
    { rewrite K. intros X. apply in_app_or in X. destruct X as [X|X]; [tauto|].
      rewrite R in NR. apply NoDup_remove_2 in NR. apply NR. apply in_or_app; auto. }
    assert (keys : forall a, In a N -> (In a (map fst cols) <-> In a P \/ before a n N) \/ a = n).
    { intros a Ia. destruct (node_dec a n); auto. left. rewrite K, in_app_iff.
      split; intros [X|X]; auto.
      - destruct (in_dec node_dec a P); auto. right. apply (earlier pre n l); auto.
      - destruct (in_dec node_dec a P); auto. right. apply (earlier pre n l a R Ia n1). auto. }
    cbn [foldM].
    assert (step : forall c, place ssp g P e cols n = Ok (cols ++ [(n, c)]) -> good n ->
       (leads E n e -> exists k, farthest E n e k /\ (c = Z.of_nat (length P) - 1 - Z.of_nat k)%Z) ->
       (~ leads E n e -> (exists m, In (m, n) E /\ In (m, c - 1)%Z cols) /\ forall m, In (m, n) E -> exists k, In (m, k) cols /\ (k < c)%Z) ->
       (exists cols', bind (place ssp g P e cols n) (fun s' => foldM (place ssp g P e) l s') = Ok cols' /\ map fst cols' = P ++ rest /\ fit cols'
          /\ (exists more, cols' = cols ++ more) /\ forall m, In m (n :: l) -> good m)
       \/ (bind (place ssp g P e cols n) (fun s' => foldM (place ssp g P e) l s') = Err KeyError /\ exists m, In m (n :: l) /\ ~ good m)).
    { intros c Q g1 c1 c2. rewrite Q. cbn [bind].
      destruct (IH (pre ++ [n]) (cols ++ [(n, c)])) as [[cols' [X [Y [Z [[more M] W]]]]]|[X [m [Y Z]]]].
      - rewrite <- app_assoc. auto.
      - rewrite map_app, K, <- app_assoc. auto.
      - apply fit_more; auto.
      - left. exists cols'. split; auto. split; auto. split; auto. split.
        + rewrite M, <- app_assoc. eexists; eauto.
        + intros m [<-|J]; auto.
      - right. split; auto. exists m. split; [right; auto | auto]. }
    destruct (leads_dec n e In' e_in) as [L|L].
    + destruct (place_leads n cols In' L F) as [k [Q T]]. apply (step _ Q).
      * intros X. tauto.
      * intros _. eauto.
      * tauto.
    + destruct (place_other n cols In' L F) as [[c [Q [B [D T]]]]|[Q B]].
      * assert (D' : forall a, a <> n -> leads E a n -> In a (map fst cols)).
        { intros a X Y. destruct (D _ X Y) as [ca [k [Z _]]].
          destruct (in_dec node_dec a (map fst cols)) as [|Z']; auto.
          apply (get_none node_eqb node_eqb_eq) in Z'. congruence. }
        apply (step _ Q).
        -- intros _. split; auto. intros a X Y.
           destruct (keys a (leads_node' _ _ Y In')) as [Z|Z]; [apply Z; auto | congruence].
        -- tauto.
        -- intros _. split.
           ++ destruct T as [a [ca [k [T1 [T2 [T3 T4]]]]]].
              destruct k as [|k]; [exfalso; apply T1; apply (route_0 E); apply T3|].
              destruct (route_last _ _ _ _ (proj1 T3)) as [p [Rp Ep]].
              assert (p <> n) by (intros ->; apply (A n 0); econstructor; eauto; constructor).
              destruct (D p H0 (leads_edge _ _ _ Ep)) as [cp [j [U [V W]]]].
              exists p. split; auto. replace (c - 1)%Z with cp; [apply (get_in node_eqb node_eqb_eq); auto|].
              assert (1 <= j) by (apply V; econstructor; eauto; constructor).
              assert (ca + Z.of_nat k <= cp)%Z.
              { eapply (fit_route cols a p k); eauto; try (apply (get_in node_eqb node_eqb_eq); auto).
                - apply (leads_node' a n); auto. eexists; apply T3.
                - intros x X1 X2. apply D'.
                  + intros ->. apply H0. apply (no_return E A); auto. apply leads_edge; auto.
                  + eapply leads_trans; eauto. apply leads_edge; auto. }
              lia.
           ++ intros m M. assert (m <> n) by (intros ->; apply (A n 0); econstructor; eauto; constructor).
              destruct (D m H0 (leads_edge _ _ _ M)) as [cm [j [U [V W]]]]. exists cm.
              split; [apply (get_in node_eqb node_eqb_eq); auto|].
              assert (1 <= j) by (apply V; econstructor; eauto; constructor). lia.
      * right. rewrite Q. split; auto. exists n. split; [left; auto|]. intros g1. destruct (g1 L) as [g2 g3].
        destruct B as [B|[a [X [Y Z]]]]; auto.
        apply (get_none node_eqb node_eqb_eq) in Z. apply Z.
        destruct (keys a (leads_node' _ _ Y In')) as [W|W]; [apply W; auto | congruence].
Qed.

Variable dlp : graph -> option (list node).
Hypothesis D1 : dlp g = Some P.

Lemma columns_result :
  (exists cols, get_column_by_node dlp ssp g = Ok cols /\ map fst cols = P ++ rest /\ fit cols /\ found g P e)
  \/ (get_column_by_node dlp ssp g = Err KeyError /\ ~ found g P e).
Proof.
  unfold get_column_by_node. rewrite D1. cbn [of_option bind].
  assert (LE : last_error P = Some e) by (destruct He as [h Hh]; rewrite Hh; apply last_error_snoc).
  rewrite LE. cbn [of_option bind].
  destruct first_loop as [cols [Q [K V]]]. rewrite Q. cbn [bind]. fold rest.
  assert (H : fit cols).
  { split; [rewrite K; apply P_nodup|]. split; [intros n c I _; apply V; auto|].
    intros n c I L. exfalso. apply L. apply P_leads. rewrite <- K. apply (in_map fst) in I. auto. }
  destruct (second_loop rest [] cols) as [[cols' [X [Y [Z [_ W]]]]]|[X [n [Y Z]]]]; auto.
  - rewrite app_nil_r; auto.
  - left. exists cols'. split; auto. split; auto. split; auto. intros n I L. apply (W n); auto.
    apply in_rest; split; auto. intros J. apply L. apply P_leads; auto.
  - right. split; auto. intros F. apply Z. intros L. apply F; auto. apply in_rest in Y; tauto.
Qed.

Lemma keys_nodup : NoDup (P ++ rest).
Proof.
  apply nodup_app; [apply P_nodup | apply NoDup_filter; apply G | intros x X; apply in_rest in X; tauto].
Qed.
Lemma keys_all : Permutation (P ++ rest) N.
Proof.
  apply NoDup_Permutation; [apply keys_nodup | apply G |].
  intros n. rewrite in_app_iff, in_rest. split; [intros [X|X]; [apply P_in; auto | tauto]|].
  destruct (in_dec node_dec n P); auto.
Qed.

(** *** Facts on the columns found *)
Section Found.
Variable cols : list (node * Z).
Hypothesis K : map fst cols = P ++ rest.
Hypothesis H : fit cols.
Hypothesis Fo : found g P e.

Lemma col_of n : In n N -> exists c, In (n, c) cols.
Proof.
  intros I. assert (J : In n (map fst cols)).
  { rewrite K, in_app_iff, in_rest. destruct (in_dec node_dec n P); auto. }
  apply in_map_iff in J. destruct J as [[m c] [X J]]. simpl in X. subst. eauto.
Qed.
Lemma col_node n c : In (n, c) cols -> In n N.
Proof.
  intros I. apply (in_map fst) in I. rewrite K, in_app_iff, in_rest in I. simpl in I. destruct I as [I|I]; [apply P_in; auto | tauto].
Qed.

Lemma col_a a n c b m cm : cols = a ++ (n, c) :: b -> before m n (P ++ rest) -> In (m, cm) cols -> In (m, cm) a.
Proof.
  intros Q B I. pose proof keys_nodup as D. rewrite <- K, Q, map_app in D, B. simpl in D, B.
  apply before_split in B; auto. apply in_map_iff in B. destruct B as [[m' c'] [X Y]]. simpl in X. subst m'.
  rewrite <- (fit_same cols m c' cm H); auto. rewrite Q. apply in_or_app; auto.
Qed.

Lemma graded a n c b : cols = a ++ (n, c) :: b ->
  (0 <= c)%Z /\ (c = 0 \/ In (c - 1) (map snd a) \/ In c (map snd a))%Z.
Proof.
  remember (length a) as len eqn:LL. revert a n c b LL. induction len as [len IH] using lt_wf_ind. intros a n c b -> Q.
  assert (I : In (n, c) cols) by (rewrite Q; apply in_or_app; simpl; auto).
  pose proof (col_node _ _ I) as J. pose proof keys_nodup as ND.
  destruct (leads_dec n e J e_in) as [L|L].
  - destruct (proj1 (proj2 H) _ _ I L) as [k [T C]].
    pose proof (far_bound n k J (proj1 T)) as B. split; [lia|].
    destruct (in_dec node_dec n P) as [X|X].
    + destruct (in_split _ _ X) as [l1 [l2 S]].
      pose proof (far_same _ _ _ _ T (P_far _ _ _ S)) as ->.
      assert (Cl : c = Z.of_nat (length l1)) by (rewrite S, app_length in C; simpl in C; lia).
      destruct l1 as [|x l1]; [left; auto|]. right. left.
      destruct (exists_last (l := x :: l1)) as [l3 [m M]]; [discriminate|]. rewrite M in *. clear M.
      assert (S' : P = l3 ++ m :: (n :: l2)) by (rewrite S, <- app_assoc; auto).
      destruct (col_of m) as [cm Cm]; [apply P_in; rewrite S'; apply in_or_app; simpl; auto|].
      destruct (proj1 (proj2 H) _ _ Cm) as [k' [T' C']]; [eexists; apply (P_far _ _ _ S')|].
      pose proof (far_same _ _ _ _ T' (P_far _ _ _ S')) as ->.
      assert (cm = c - 1)%Z. { simpl in C'. lia. } subst cm.
      apply (in_map snd) with (x := (m, c - 1)%Z). apply (col_a _ _ _ _ _ _ Q); [|rewrite <- H0; auto].
      exists l3, [], (l2 ++ rest). rewrite S', <- app_assoc. auto.
    + right. right. assert (Y : Z.to_nat c < length P) by lia.
      apply nth_error_Some in Y. destruct (nth_error P (Z.to_nat c)) as [m|] eqn:M; [|congruence]. clear Y.
      apply nth_error_split in M. destruct M as [l1 [l2 [S W]]].
      destruct (col_of m) as [cm Cm]; [apply P_in; rewrite S; apply in_or_app; simpl; auto|].
      destruct (proj1 (proj2 H) _ _ Cm) as [k' [T' C']]; [eexists; apply (P_far _ _ _ S)|].
      pose proof (far_same _ _ _ _ T' (P_far _ _ _ S)) as ->.
      assert (cm = c). { rewrite S, app_length in C'. simpl in C'. lia. } subst cm.
      apply (in_map snd) with (x := (m, c)). apply (col_a _ _ _ _ _ _ Q); [|rewrite <- H0; auto].
      apply before_not; auto; [rewrite S; apply in_or_app; simpl; auto | apply in_rest; auto].
  - destruct (proj2 (proj2 H) _ _ I L) as [[m [M1 M2]] _].
    assert (NP : ~ In n P) by (intros X; apply L; apply P_leads; auto).
    assert (Rn : In n rest) by (apply in_rest; auto).
    assert (Na : m <> n) by (intros ->; apply (A n 0); econstructor; eauto; constructor).
    assert (B : before m n (P ++ rest)).
    { destruct (in_dec node_dec m P) as [X|X]; [apply before_not; auto|].
      destruct (proj2 (Fo n J L) m Na (leads_edge _ _ _ M1)) as [Y|Y]; [tauto|].
      apply (before_filter (fun n => negb (memb node_eqb n P))) in Y.
      - fold rest in Y. destruct Y as [x [y [z Y]]]. rewrite Y. exists (P ++ x), y, z. rewrite <- app_assoc. auto.
      - apply negb_true_iff. destruct (memb node_eqb m P) eqn:Z; auto. apply node_memb in Z. tauto.
      - apply negb_true_iff. destruct (memb node_eqb n P) eqn:Z; auto. apply node_memb in Z. tauto. }
    pose proof (col_a _ _ _ _ _ _ Q B M2) as Ia. split.
    + destruct (in_split _ _ Ia) as [a1 [a2 Ea]].
      destruct (IH (length a1)) with (a := a1) (n := m) (c := (c - 1)%Z) (b := a2 ++ (n, c) :: b) as [Z _]; auto; try lia.
      * rewrite Ea, app_length. simpl. lia.
      * rewrite Q, Ea, <- app_assoc. auto.
    + right. left. apply (in_map snd) in Ia. auto.
Qed.

Lemma columns_fit : columns_of g P e cols.
Proof.
  split; [rewrite K; apply keys_all|]. split; [apply H|]. intros n c I L.
  destruct (proj2 (proj2 H) _ _ I L) as [X Y]. split; auto. intros m k M Mk.
  destruct (Y _ M) as [k' [Z W]]. rewrite (fit_same _ _ _ _ H Mk Z). auto.
Qed.
End Found.
End Columns.

(** ** Grouping nodes by column *)
Section Group.
Variable index : node -> option nat.
Definition grouped (done : list (nat * Z)) (d : list (Z * list nat)) : Prop :=
  map fst d = map Z.of_nat (seq 0 (length d))
  /\ (forall c, In c (map fst d) <-> In c (map snd done))
  /\ forall c l, In (c, l) d -> l = map fst (filter (fun x => Z.eqb (snd x) c) done).
Definition gather (d : list (Z * list nat)) (ic : nat * Z) : list (Z * list nat) :=
  put Z.eqb (snd ic) (match get Z.eqb (snd ic) d with Some l => l | None => [] end ++ [fst ic]) d.

Lemma Zeqb_eq a b : Z.eqb a b = true <-> a = b.
Proof. apply Z.eqb_eq. Qed.

Lemma nodup_seq d : map fst d = map Z.of_nat (seq 0 (length (d : list (Z * list nat)))) -> NoDup (map fst d).
Proof.
  intros ->. apply FinFun.Injective_map_NoDup; [|apply seq_NoDup]. intros x y. lia.
Qed.

Lemma gather_ok done d i c : grouped done d -> (0 <= c)%Z ->
  (c = 0 \/ In (c - 1) (map snd done) \/ In c (map snd done))%Z ->
  grouped (done ++ [(i, c)]) (gather d (i, c)).
Proof.
  intros [Q [K V]] C0 C. pose proof (nodup_seq _ Q) as ND. unfold gather. cbn [fst snd].
  assert (keys : forall x, In x (map fst d) <-> (0 <= x < Z.of_nat (length d))%Z).
  { intros x. rewrite Q, in_map_iff. split.
    - intros [n [<- I]]. apply in_seq in I. lia.
    - intros I. exists (Z.to_nat x). rewrite in_seq. lia. }
  assert (fl : forall c', filter (fun x => Z.eqb (snd x) c') (done ++ [(i, c)])
               = filter (fun x => Z.eqb (snd x) c') done ++ (if Z.eqb c c' then [(i, c)] else [])).
  { intros. rewrite filter_app. simpl. destruct (Z.eqb c c'); auto. }
  destruct (in_dec Z.eq_dec c (map fst d)) as [I|I].
  - assert (PK : map fst (put Z.eqb c (match get Z.eqb c d with Some l => l | None => [] end ++ [i]) d) = map fst d)
      by (apply (put_keys Z.eqb Zeqb_eq); auto).
    assert (PL : length (put Z.eqb c (match get Z.eqb c d with Some l => l | None => [] end ++ [i]) d) = length d)
      by (rewrite <- (map_length fst), PK, map_length; auto).
    split; [rewrite PK, PL; auto|]. split.
    + intros x. rewrite PK, map_app, in_app_iff, K. simpl. split; [tauto|].
      intros [X|[X|[]]]; auto. subst. apply K; auto.
    + intros x l J. apply (get_some Z.eqb Zeqb_eq) in J; [|rewrite PK; auto].
      rewrite (get_put Z.eqb Zeqb_eq) in J. rewrite fl. destruct (Z.eqb_spec c x) as [->|NE].
      * inversion J; subst l. rewrite map_app. simpl. f_equal.
        destruct (get Z.eqb x d) as [l|] eqn:Gx.
        -- apply (V x l). apply (get_in Z.eqb Zeqb_eq); auto.
        -- apply (get_none Z.eqb Zeqb_eq) in Gx. tauto.
      * rewrite app_nil_r. apply V. apply (get_some Z.eqb Zeqb_eq); auto.
  - assert (Gc : get Z.eqb c d = None) by (apply (get_none Z.eqb Zeqb_eq); auto).
    rewrite Gc. rewrite (put_fresh Z.eqb Zeqb_eq) by auto.
    assert (c = Z.of_nat (length d)).
    { destruct C as [C|[C|C]].
      - subst. rewrite keys in I. lia.
      - apply K in C. rewrite keys in C, I. lia.
      - apply K in C. tauto. }
    split; [|split].
    + rewrite app_length, map_app, Q. simpl. rewrite Nat.add_1_r, seq_S, map_app. simpl. subst. auto.
    + intros x. rewrite !map_app, !in_app_iff, K. simpl. tauto.
    + intros x l J. rewrite fl. apply in_app_or in J. destruct J as [J|[J|[]]].
      * destruct (Z.eqb_spec c x) as [->|NE].
        -- exfalso. apply I. apply (in_map fst) in J. auto.
        -- rewrite app_nil_r. auto.
      * inversion J; subst x l. rewrite Z.eqb_refl, map_app. simpl.
        replace (filter (fun x => (snd x =? c)%Z) done) with (@nil (nat * Z)); auto.
        symmetry. destruct (filter (fun x => (snd x =? c)%Z) done) as [|y r] eqn:Fy; auto.
        exfalso. assert (Iy : In y (filter (fun x => (snd x =? c)%Z) done)) by (rewrite Fy; simpl; auto).
        apply filter_In in Iy. destruct Iy as [Iy Ey]. apply Z.eqb_eq in Ey. apply I. apply K. rewrite <- Ey. apply in_map; auto.
Qed.

Lemma gathers todo : forall done d, grouped done d ->
  (forall a i c b, todo = a ++ (i, c) :: b ->
     (0 <= c)%Z /\ (c = 0 \/ In (c - 1) (map snd (done ++ a)) \/ In c (map snd (done ++ a)))%Z) ->
  grouped (done ++ todo) (fold_left gather todo d).
Proof.
  induction todo as [|[i c] todo IH]; intros done d Q W; simpl; [rewrite app_nil_r; auto|].
  replace (done ++ (i, c) :: todo) with ((done ++ [(i, c)]) ++ todo) by (rewrite <- app_assoc; auto).
  apply IH.
  - destruct (W [] i c todo eq_refl) as [X Y]. rewrite app_nil_r in Y. apply gather_ok; auto.
  - intros a j k b ->. destruct (W ((i, c) :: a) j k b eq_refl) as [X Y]. rewrite <- app_assoc. auto.
Qed.

Lemma gather_fold cols : (forall n c, In (n, c) cols -> exists i, index n = Some i) -> forall d,
  foldM (fun d nc =>
             let* i := of_option ValueError (index (fst nc)) in
             let l := match get Z.eqb (snd nc) d with Some l => l | None => [] end in
             Ok (put Z.eqb (snd nc) (l ++ [i]) d)) cols d
  = Ok (fold_left gather (map (fun nc => (match index (fst nc) with Some i => i | None => 0 end, snd nc)) cols) d).
Proof.
  induction cols as [|[n c] cols IH]; intros W d; auto.
  cbn [foldM map fold_left fst snd]. destruct (W n c) as [i I]; [left; auto|]. rewrite I. cbn [of_option bind].
  apply IH. intros m k J. apply (W m k). right; auto.
Qed.
End Group.

(** When at most one attribute varies: all pairs, in the order of the attributes. *)
From Coq Require Import Bool Arith QArith String Lia Lqa Permutation Sorted.
From Verif Require Import Base BaseProofs AxesModel AxesSpec AxesProofs AxesMain AxesFour.
From Coq Require Import List.
Import ListNotations.
Open Scope nat_scope.

Definition above (x y : scored) : Prop := (fst y < fst x)%Q.
Lemma insert_above x l : Forall (above x) l -> insert x l = l ++ [x].
Proof.
  induction 1 as [|y l H _ IH]; simpl; auto.
  replace (leb_scored x y) with false; [rewrite IH; auto|]. symmetry. unfold leb_scored, above in *.
  destruct (Qeq_bool (fst x) (fst y)) eqn:E; [apply Qeq_bool_iff in E; rewrite E in H; destruct (Qlt_irrefl _ H)|].
  destruct (Qle_bool (fst x) (fst y)) eqn:E'; auto. apply Qle_bool_iff in E'. lra.
Qed.
Lemma sorted_above l : StronglySorted above l -> sorted l = rev l.
Proof.
  induction 1 as [|x l _ IH F]; simpl; auto. rewrite IH. apply insert_above.
  apply (Permutation_Forall (Permutation_rev l)); auto.
Qed.
Lemma tenth_le j k : (j <= k)%nat -> (inject_Z (Z.of_nat j) / 10 <= inject_Z (Z.of_nat k) / 10)%Q.
Proof.
  intros H. unfold Qdiv. apply Qmult_le_compat_r; [|discriminate]. rewrite <- Zle_Qle. lia.
Qed.
Lemma tenth_lt j k : (j < k)%nat -> (inject_Z (Z.of_nat j) / 10 < inject_Z (Z.of_nat k) / 10)%Q.
Proof.
  intros H. unfold Qdiv. apply Qmult_lt_compat_r; [reflexivity|]. rewrite <- Zlt_Qlt. lia.
Qed.
Lemma row_scores (a : string) r q : forall j, Forall (fun x : scored => (fst x <= q - inject_Z (Z.of_nat j) / 10)%Q /\ (q - inject_Z (Z.of_nat (j + List.length r)) / 10 < fst x)%Q)
    (map (fun kv : nat * string => ((q - inject_Z (Z.of_nat (fst kv)) / 10)%Q, [a; snd kv])) (combine (seq j (List.length r)) r))
  /\ StronglySorted above (map (fun kv : nat * string => ((q - inject_Z (Z.of_nat (fst kv)) / 10)%Q, [a; snd kv])) (combine (seq j (List.length r)) r)).
Proof.
  induction r as [|b r IH]; intros j; simpl; [split; constructor|].
  destruct (IH (S j)) as [F SS]. split.
  - constructor; simpl.
    + split; [lra|]. assert (H := tenth_lt j (j + S (List.length r)) ltac:(lia)). lra.
    + eapply Forall_impl; [|exact F]. cbv beta. intros x [A B].
      replace (S j + List.length r) with (j + S (List.length r)) in B by lia.
      assert (H := tenth_le j (S j) ltac:(lia)). split; [lra|auto].
  - constructor; auto. eapply Forall_impl; [|exact F]. cbv beta. intros x [A B]. red. simpl.
    assert (H := tenth_lt j (S j) ltac:(lia)). lra.
Qed.
Lemma unreal_scores attrs : forall q, Forall (fun x : scored => (fst x <= q)%Q) (unreal attrs q) /\ StronglySorted above (unreal attrs q).
Proof.
  induction attrs as [|a r IH]; intros q; cbn [unreal]; [split; constructor|].
  destruct (row_scores a r q 0) as [F S]. destruct (IH (q - inject_Z (Z.of_nat (List.length r)) / 10)%Q) as [F' S'].
  assert (Z0 : (inject_Z (Z.of_nat 0) / 10 == 0)%Q) by reflexivity.
  split.
  - apply Forall_app. split.
    + eapply Forall_impl; [|exact F]. cbv beta. intros x [A _]. lra.
    + eapply Forall_impl; [|exact F']. cbv beta. intros x A. assert (H := tenth_le 0 (List.length r) ltac:(lia)). lra.
  - revert F S. simpl plus. generalize (map (fun kv : nat * string => ((q - inject_Z (Z.of_nat (fst kv)) / 10)%Q, [a; snd kv])) (combine (seq 0 (List.length r)) r)).
    induction l as [|x l IHl]; simpl; intros F S; auto.
    inversion F as [|? ? [A B] F2]; subst. inversion S as [|? ? S2 G]; subst. constructor; auto.
    apply Forall_app. split; auto. eapply Forall_impl; [|exact F']. cbv beta. intros y Y. red. lra.
Qed.
Lemma unreal_order attrs : map snd (rev (sorted (unreal attrs 1))) = pairs attrs.
Proof.
  rewrite sorted_above by apply unreal_scores. rewrite rev_involutive. apply unreal_pairs.
Qed.

Section Star.
Variable order : list string -> list string.
Variables (a0 a1 a2 x y : string).
Hypothesis XY : x = a1 /\ y = a2 \/ x = a2 /\ y = a1.
Hypothesis N01 : a0 <> a1.
Hypothesis N02 : a0 <> a2.
Hypothesis N12 : a1 <> a2.
Notation step := (fun ordered serie =>
    if existsb (fun i => memb String.eqb i serie) ordered
    then new_sided_attribute ordered serie
    else let* t := new_attributes_trio order serie in Ok (ordered ++ t)).

Lemma one_side_same front ordered s e : end_of front ordered = Some e -> ~ In e s -> one_side front ordered s = Ok ordered.
Proof.
  unfold one_side, end_of. intros -> N. cbn [of_option bind].
  apply memb_not in N. rewrite N. auto.
Qed.

(** Two more attributes are dropped. *)
Lemma step_same u v : ~ In u [a0; a1; a2] -> ~ In v [a0; a1; a2] -> step [x; a0; y] [a0; u; a0; v] = Ok [x; a0; y].
Proof.
  intros U V. cbv beta.
  assert (E : existsb (fun i => memb String.eqb i [a0; u; a0; v]) [x; a0; y] = true).
  { apply existsb_exists. exists a0. split; [simpl; auto|]. apply memb_iff. simpl; auto. }
  rewrite E. unfold new_sided_attribute. simpl in U, V.
  rewrite (one_side_same true [x; a0; y] _ x eq_refl); [|simpl; intuition congruence]. cbn [bind].
  rewrite (one_side_same false [x; a0; y] _ y eq_refl); [|simpl; intuition congruence]. auto.
Qed.
(** The last one is added when it comes alone. *)
Lemma step_last V u : ~ In u [a0; a1; a2] -> incl [a0; a1; a2; u] V ->
  exists o, step [x; a0; y] [a0; u; a1; u] = Ok o /\ Permutation o [a0; a1; a2; u].
Proof.
  intros U IV. cbv beta.
  assert (E : existsb (fun i => memb String.eqb i [a0; u; a1; u]) [x; a0; y] = true).
  { apply existsb_exists. exists a0. split; [simpl; auto|]. apply memb_iff. simpl; auto. }
  rewrite E. simpl in U.
  set (W := [a0; a1; a2; u]).
  assert (OK : serie_ok W [a0; u; a1; u]).
  { apply (serie_trio W _ _ _ _ u a0 a1); unfold W; simpl; auto; intuition congruence. }
  assert (ND : NoDup [x; a0; y]) by (repeat constructor; simpl; intuition congruence).
  assert (IN : incl [x; a0; y] W) by (intros z [<-|[<-|[<-|[]]]]; unfold W; simpl; intuition congruence).
  assert (EN : exists front, end_of front [x; a0; y] = Some a1) by (destruct XY as [[-> ->]|[-> ->]]; [exists true|exists false]; auto).
  destruct EN as [front EN].
  assert (MU : mate [a0; u; a1; u] a1 u) by repeat constructor.
  assert (AL : forall z, In z W -> z = u \/ In z [x; a0; y]).
  { unfold W. simpl. clear - XY. intros z Z. destruct XY as [[-> ->]|[-> ->]]; intuition. }
  destruct (sided_adds W [x; a0; y] _ a1 u front OK ltac:(discriminate) ND IN EN MU AL) as [o [O Iu]].
  destruct (sided_ok W [x; a0; y] _ OK) as [o' [O' [NO [IO [p [q EQ]]]]]]; auto; [discriminate|].
  rewrite O in O'. assert (EO : o' = o) by congruence. rewrite EO in *. clear EO. exists o. split; auto.
  apply NoDup_Permutation; auto.
  - unfold W in *. repeat constructor; simpl; intuition congruence.
  - intros z. split; [apply IO|]. intros Z. assert (J : z = u \/ In z [x; a0; y]).
    { simpl in Z. simpl. clear - Z XY. destruct XY as [[-> ->]|[-> ->]]; intuition. }
    destruct J as [->|J]; auto. rewrite EQ. apply in_or_app. right. apply in_or_app. auto.
Qed.

Definition star (l : list string) : list (list string) := map (fun b => [a0; b]) l.

Lemma pull_last w u rest : ~ In a0 (a1 :: w) -> ~ In u (a1 :: w) ->
  pull [a0; u] (map (fun b => [a1; b]) (w ++ [u]) ++ rest) = Some ([a1; u], map (fun b => [a1; b]) w ++ rest).
Proof.
  intros N0 NU. induction w as [|b w IH]; cbn [app map pull].
  - replace (existsb (fun i => memb String.eqb i [a0; u]) [a1; u]) with true; auto.
    symmetry. apply existsb_exists. exists u. split; [simpl; auto|]. apply memb_iff; simpl; auto.
  - replace (existsb (fun i => memb String.eqb i [a0; u]) [a1; b]) with false.
    + rewrite IH; [reflexivity| |]; simpl in *; tauto.
    + symmetry. apply not_true_is_false. intros H. apply existsb_exists in H. destruct H as [i [I J]].
      apply memb_iff in J. simpl in *. intuition congruence.
Qed.

Lemma star_axes k : forall w w1 fuel picked all,
  List.length w <= k -> List.length (star w) < fuel ->
  NoDup (a0 :: a1 :: a2 :: w1 ++ w) ->
  (forall z, In z picked <-> In z (a0 :: a1 :: a2 :: w1)) ->
  (forall z, In z all <-> In z (a0 :: a1 :: a2 :: w1 ++ w)) ->
  exists series o, trios fuel picked all (star w ++ pairs (a1 :: a2 :: w1 ++ w)) = Ok series
    /\ foldM step series [x; a0; y] = Ok o
    /\ (Nat.even (List.length w) = true -> o = [x; a0; y])
    /\ (Nat.even (List.length w) = false -> exists h u, w = h ++ [u] /\ Permutation o [a0; a1; a2; u]).
Proof.
  induction k as [k IH] using lt_wf_ind; intros w w1 fuel picked all LK LF ND PI AL.
  destruct fuel as [|fuel]; [lia|]. cbn [trios].
  destruct w as [|u w].
  { replace (Nat.eqb _ _) with true.
    - exists [], [x; a0; y]. split; auto. split; auto. split; auto. discriminate.
    - symmetry. apply Nat.eqb_eq. apply uniq_same. intros z. rewrite PI, AL, app_nil_r. tauto. }
  assert (NU : ~ In u (a0 :: a1 :: a2 :: w1)).
  { intros I. change (a0 :: a1 :: a2 :: w1 ++ u :: w) with ((a0 :: a1 :: a2 :: w1) ++ u :: w) in ND.
    apply NoDup_remove_2 in ND. apply ND. apply in_or_app; auto. }
  assert (NU3 : ~ In u [a0; a1; a2]) by (simpl in *; tauto).
  destruct (Nat.eqb_spec (List.length (uniq picked)) (List.length (uniq all))) as [E|_].
  { exfalso. apply (uniq_less picked all u); auto.
    - intros z Z. apply PI in Z. apply AL. simpl in *. rewrite in_app_iff. tauto.
    - apply AL. simpl. rewrite in_app_iff. simpl. tauto.
    - rewrite PI. auto. }
  destruct w as [|v w].
  - (* alone *)
    cbn [star map app].
    change (pairs (a1 :: a2 :: w1 ++ [u])) with (map (fun b => [a1; b]) ((a2 :: w1) ++ [u]) ++ pairs (a2 :: w1 ++ [u])).
    rewrite pull_last.
    + cbn [star] in LF. simpl in LF. destruct fuel as [|fuel]; [lia|]. cbn [trios].
      replace (Nat.eqb _ _) with true.
      * cbn [bind]. exists [[a0; u] ++ [a1; u]].
        destruct (step_last [a0; a1; a2; u] u NU3 (incl_refl _)) as [o [Q P]].
        exists o. split; auto. split; [change ([a0; u] ++ [a1; u]) with [a0; u; a1; u]; cbn [foldM]; cbv beta in Q; rewrite Q; reflexivity|].
        split; [discriminate|]. intros _. exists [], u. auto.
      * symmetry. apply Nat.eqb_eq. apply uniq_same. intros z. rewrite AL, !in_app_iff, PI. simpl. rewrite in_app_iff. simpl. tauto.
    + inversion ND as [|? ? A B]; subst. intros I. apply A. simpl in *. rewrite in_app_iff. tauto.
    + intros I. apply NU. simpl in *. tauto.
  - assert (NV : ~ In v (a0 :: a1 :: a2 :: w1)).
    { intros I. change (a0 :: a1 :: a2 :: w1 ++ u :: v :: w) with ((a0 :: a1 :: a2 :: w1) ++ [u] ++ v :: w) in ND.
      rewrite app_assoc in ND. apply NoDup_remove_2 in ND. apply ND. rewrite !in_app_iff. auto. }
    assert (NV3 : ~ In v [a0; a1; a2]) by (simpl in *; tauto).
    cbn [star map app pull].
    replace (existsb (fun i => memb String.eqb i [a0; u]) [a0; v]) with true.
    2: { symmetry. apply existsb_exists. exists a0. split; [simpl; auto|]. apply memb_iff; simpl; auto. }
    destruct (IH (List.length w)) with (w := w) (w1 := w1 ++ [u; v]) (fuel := fuel) (picked := picked ++ [a0; u] ++ [a0; v]) (all := all)
      as [series [o [Q1 [Q2 [Q3 Q4]]]]].
    + simpl in LK. lia.
    + lia.
    + cbn [star] in LF. simpl in LF. unfold star in *. lia.
    + rewrite <- app_assoc. auto.
    + intros z. rewrite in_app_iff, PI. simpl. rewrite !in_app_iff. simpl. tauto.
    + intros z. rewrite AL. rewrite <- app_assoc. tauto.
    + rewrite <- app_assoc in Q1. cbn [app] in Q1. unfold star in Q1. cbn [app]. rewrite Q1. cbn [bind].
      exists ([a0; u; a0; v] :: series), o. split; auto. split.
      * cbn [foldM]. pose proof (step_same u v NU3 NV3) as SS. cbv beta in SS. rewrite SS. exact Q2.
      * split; [exact Q3|]. intros E. destruct (Q4 E) as [h [u' [-> P]]]. exists (u :: v :: h), u'. auto.
Qed.
End Star.

Lemma star_all order : lists_sets order -> forall a0 a1 a2 w, NoDup (a0 :: a1 :: a2 :: w) ->
  exists series o, get_attribute_trios (pairs (a0 :: a1 :: a2 :: w)) = Ok series
    /\ trios_list_to_parallel_axes order series = Ok o
    /\ (Nat.even (List.length w) = true -> Permutation o [a0; a1; a2])
    /\ (Nat.even (List.length w) = false -> exists h u, w = h ++ [u] /\ Permutation o [a0; a1; a2; u]).
Proof.
  intros OR a0 a1 a2 w ND.
  assert (N : a0 <> a1 /\ a0 <> a2 /\ a1 <> a2).
  { inversion ND as [|? ? A B]; subst. inversion B as [|? ? C D]; subst. simpl in *. intuition congruence. }
  destruct N as [N01 [N02 N12]].
  assert (OK : serie_ok (a0 :: a1 :: a2 :: w) [a0; a1; a0; a2]).
  { apply (serie_trio _ _ _ _ _ a0 a1 a2); simpl; auto. }
  destruct (trio_ok order OR _ _ OK) as [t [T [T1 [T2 [_ [_ T5]]]]]].
  destruct (T5 _ _ _ _ eq_refl) as [x [m [y [-> [[M1 M2] [X1 [X2 X3]]]]]]].
  assert (XM : m = a0 /\ (x = a1 /\ y = a2 \/ x = a2 /\ y = a1)).
  { assert (K : forall p q, mate [a0; a1; a0; a2] p q -> (p = a0 /\ q = a1 \/ p = a1 /\ q = a0) \/ (p = a0 /\ q = a2 \/ p = a2 /\ q = a0)).
    { intros p q H. inversion H as [| |? ? ? ? ? H']; subst; auto. inversion H' as [| |? ? ? ? ? H'']; subst; auto. inversion H''. }
    apply K in M1, M2. clear - M1 M2 N01 N02 N12 X1 X2 X3. intuition congruence. }
  destruct XM as [-> XY].
  destruct (star_axes order a0 a1 a2 x y XY N01 N02 N12 (List.length w) w [] (S (List.length (map (fun b => [a0; b]) (a1 :: a2 :: w) ++ pairs (a1 :: a2 :: w)) - 1))
              [a0; a1; a0; a2] (List.concat (pairs (a0 :: a1 :: a2 :: w)))) as [series [o [Q1 [Q2 [Q3 Q4]]]]]; auto.
  - unfold star. rewrite app_length, !map_length. simpl. lia.
  - intros z. simpl. tauto.
  - intros z. apply pairs_concat. simpl. lia.
  - exists ([a0; a1; a0; a2] :: series), o. split; [|split].
    + unfold get_attribute_trios. cbn [trios].
      destruct (Nat.eqb_spec (List.length (uniq [])) (List.length (uniq (List.concat (pairs (a0 :: a1 :: a2 :: w)))))) as [E|_].
      { exfalso. apply (uniq_less [] (List.concat (pairs (a0 :: a1 :: a2 :: w))) a0); auto; [intros z []|].
        apply pairs_concat; simpl; [lia|auto]. }
      cbn [pairs map app pull].
      replace (existsb (fun i => memb String.eqb i [a0; a1]) [a0; a2]) with true.
      2: { symmetry. apply existsb_exists. exists a0. split; [simpl; auto|]. apply memb_iff; simpl; auto. }
      cbn [app]. unfold star in Q1. cbn [app] in Q1.
      match type of Q1 with trios ?f _ _ _ = _ => match goal with |- context [trios ?g _ _ _] => replace g with f end end.
      * cbn [pairs map app] in Q1 |- *. rewrite Q1. reflexivity.
      * cbn [map app List.length pairs]. lia.
    + unfold trios_list_to_parallel_axes. cbn [foldM existsb]. rewrite T. cbn [bind app]. exact Q2.
    + split; auto. intros E. rewrite (Q3 E). clear - XY.
      destruct XY as [[-> ->]|[-> ->]]; [apply perm_swap|]. 
      apply Permutation_sym. apply (Permutation_cons_app [a2] [a1]). simpl. apply perm_swap.
Qed.

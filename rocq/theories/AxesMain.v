(** The axes of a parallel plot: once each, the best pair together, none lost up to four. *)
From Coq Require Import Bool Arith QArith String Lia Permutation Sorted.
From Verif Require Import Base BaseProofs AxesModel AxesSpec AxesProofs.
From Coq Require Import List.
Import ListNotations.
Open Scope nat_scope.

Lemma last_some (l : list string) : l <> [] -> exists h e, l = h ++ [e] /\ hd_error (rev l) = Some e.
Proof.
  intros N. destruct (exists_last N) as [h [e ->]]. exists h, e. rewrite rev_app_distr. auto.
Qed.

Definition end_of (front : bool) (l : list string) : option string := if front then hd_error l else hd_error (rev l).
Lemma end_in front l e : end_of front l = Some e -> In e l.
Proof.
  unfold end_of. destruct front.
  - destruct l; simpl; intros H; inversion H; auto.
  - intros H. apply in_rev. destruct (rev l); simpl in H; inversion H; simpl; auto.
Qed.

Lemma one_side_ok V front ordered s : serie_ok V s -> ordered <> [] ->
  exists e o, end_of front ordered = Some e /\ one_side front ordered s = Ok o
  /\ (o = ordered /\ (forall x, mate s e x -> In x ordered)
      \/ exists x, mate s e x /\ ~ In x ordered /\ In x V /\ o = if front then x :: ordered else ordered ++ [x]).
Proof.
  intros OK N. assert (E : exists e, end_of front ordered = Some e).
  { unfold end_of. destruct front; [destruct ordered; [congruence|simpl; eauto]|].
    destruct (last_some _ N) as [h [e [_ E]]]. eauto. }
  destruct E as [e E]. exists e. unfold one_side. unfold end_of in E. rewrite E. cbn [of_option bind].
  destruct (memb String.eqb e s) eqn:M.
  - apply memb_iff in M. destruct (instances_ok V front e s ordered OK M) as [o H]. exists o. tauto.
  - apply memb_not in M. exists ordered. split; auto. split; auto. left. split; auto.
    intros x H. exfalso. apply M. apply (mate_in _ _ _ H).
Qed.

Lemma NoDup_snoc (l : list string) x : NoDup l -> ~ In x l -> NoDup (l ++ [x]).
Proof.
  intros H N. apply NoDup_app'; auto; [repeat constructor; simpl; auto|]. intros y Y [<-|[]]; auto.
Qed.

Lemma sided_ok V ordered s : serie_ok V s -> ordered <> [] -> NoDup ordered -> incl ordered V ->
  exists o, new_sided_attribute ordered s = Ok o /\ NoDup o /\ incl o V /\ exists p q, o = p ++ ordered ++ q.
Proof.
  intros OK N ND IN. unfold new_sided_attribute.
  destruct (one_side_ok V true ordered s OK N) as [e [o [_ [-> H]]]]. cbn [bind].
  assert (O : o <> [] /\ NoDup o /\ incl o V /\ exists p, o = p ++ ordered).
  { destruct H as [[-> _]|[x [_ [H1 [H2 ->]]]]].
    - split; auto. split; auto. split; auto. exists []. auto.
    - split; [discriminate|]. split; [constructor; auto|]. split; [intros y [<-|Y]; auto|]. exists [x]. auto. }
  destruct O as [O1 [O2 [O3 [p ->]]]].
  destruct (one_side_ok V false (p ++ ordered) s OK O1) as [e' [o' [_ [-> H']]]]. exists o'. split; auto.
  destruct H' as [[-> _]|[x [_ [H1 [H2 ->]]]]].
  - split; auto. split; auto. exists p, []. rewrite app_nil_r. auto.
  - split; [apply NoDup_snoc; auto|]. split; [intros y Y; apply in_app_or in Y; destruct Y as [Y|[<-|[]]]; auto|].
    exists p, [x]. rewrite <- app_assoc. auto.
Qed.

(** The one attribute that is missing is added when it is paired with an end. *)
Lemma sided_adds V ordered s e x front : serie_ok V s -> ordered <> [] -> NoDup ordered -> incl ordered V ->
  end_of front ordered = Some e -> mate s e x -> (forall y, In y V -> y = x \/ In y ordered) ->
  exists o, new_sided_attribute ordered s = Ok o /\ In x o.
Proof.
  intros OK N ND IN E M A. unfold new_sided_attribute.
  destruct (one_side_ok V true ordered s OK N) as [e1 [o [E1 [-> H]]]]. cbn [bind].
  destruct H as [[-> H]|[x' [_ [H1 [H2 ->]]]]].
  - destruct (one_side_ok V false ordered s OK N) as [e2 [o' [E2 [-> H']]]]. exists o'. split; auto.
    destruct H' as [[-> H']|[x' [_ [H1 [H2 ->]]]]].
    + destruct front; [rewrite E1 in E; inversion E; subst; auto | rewrite E2 in E; inversion E; subst; auto].
    + destruct (A x' H2) as [->|K]; [apply in_or_app; simpl; auto | tauto].
  - destruct (A x' H2) as [->|K]; [|tauto].
    destruct (one_side_ok V false (x :: ordered) s OK) as [e2 [o' [E2 [-> H']]]]; [discriminate|]. exists o'. split; auto.
    destruct H' as [[-> H']|[x'' [_ [_ [_ ->]]]]]; simpl; auto.
Qed.

Lemma uniq_two x y : x <> y -> uniq [x; y] = [x; y].
Proof.
  intros N. unfold uniq. cbn [nodup]. destruct (in_dec string_dec x [y]) as [[I|[]]|I]; [congruence|].
  destruct (in_dec string_dec y []) as [[]|]. auto.
Qed.

Section Order.
Variable order : list string -> list string.
Hypothesis OR : lists_sets order.

Lemma trio_ok V s : serie_ok V s -> exists t, new_attributes_trio order s = Ok t /\ NoDup t /\ (forall x, In x t <-> In x s)
  /\ incl t V /\ (forall a b r, s = a :: b :: r -> adjacent a b t)
  /\ (forall a b c d, s = [a; b; c; d] -> exists x m y, t = [x; m; y] /\ (mate s x m /\ mate s y m) /\ x <> m /\ y <> m /\ x <> y).
Proof.
  intros OK. destruct OK as [a b N A B|a b c d m x y M X Y N1 N2 N3 P1 P2].
  - exists [a; b]. split; [reflexivity|]. split; [repeat constructor; simpl; intuition congruence|].
    split; [tauto|]. split; [intros z [<-|[<-|[]]]; auto|]. split; [|discriminate].
    intros u v r E. inversion E; subst. exists [], []. auto.
  - unfold new_attributes_trio. change (List.length [a; b; c; d] <? 3) with false. cbv iota.
    assert (U : exists u v, uniq (filter (fun z => negb (String.eqb z m)) [a; b; c; d]) = [u; v] /\ (u = x /\ v = y \/ u = y /\ v = x)).
    { destruct P1 as [[-> ->]|[-> ->]], P2 as [[-> ->]|[-> ->]]; exists x, y; split; auto;
        cbn [filter]; rewrite String.eqb_refl; destruct (String.eqb_spec x m), (String.eqb_spec y m); try congruence;
        cbn [negb]; apply uniq_two; auto. }
    destruct U as [u [v [U UV]]].
    assert (C : exists i, index_of Nat.eqb 2 (map (fun z => count z [a; b; c; d]) [a; b; c; d]) = Some i /\ nth_error [a; b; c; d] i = Some m).
    { destruct P1 as [[-> ->]|[-> ->]], P2 as [[-> ->]|[-> ->]];
        (unfold count; cbn [map count_occ]; repeat (destruct (string_dec _ _); try congruence); simpl; eexists; split; [reflexivity|]; reflexivity). }
    destruct C as [i [C1 C2]]. rewrite C1. cbn [of_option bind]. rewrite C2. cbn [of_option bind]. rewrite U.
    assert (Q : exists p q, order [u; v] = [p; q] /\ (p = x /\ q = y \/ p = y /\ q = x)).
    { assert (ND : NoDup [u; v]) by (repeat constructor; simpl; intuition congruence).
      pose proof (OR _ ND) as P. pose proof (Permutation_length P) as L.
      destruct (order [u; v]) as [|p [|q [|r l]]] eqn:O; simpl in L; try lia. exists p, q. split; auto.
      apply Permutation_sym, Permutation_length_2_inv in P.
      destruct P as [E|E]; inversion E; subst; intuition congruence. }
    destruct Q as [p [q [Q1 Q2]]]. rewrite Q1. exists [p; m; q]. split; [reflexivity|].
    split; [repeat constructor; simpl; intuition congruence|].
    split; [intros z; simpl; clear - P1 P2 Q2; intuition (subst; auto)|].
    split; [intros z [<-|[<-|[<-|[]]]]; destruct Q2 as [[-> ->]|[-> ->]]; auto|]. split.
    + intros a' b' r E. inversion E; subst a' b' r. unfold adjacent.
      destruct Q2 as [[-> ->]|[-> ->]]; [exists [], [y]|exists [y], []]; destruct P1 as [[-> ->]|[-> ->]]; simpl; auto.
    + intros a' b' c' d' E. inversion E; subst a' b' c' d'. exists p, m, q. split; auto.
      split; [|intuition congruence].
      destruct Q2 as [[-> ->]|[-> ->]], P1 as [[-> ->]|[-> ->]], P2 as [[-> ->]|[-> ->]]; split; repeat constructor.
Qed.

Notation step := (fun ordered serie =>
    if existsb (fun i => memb String.eqb i serie) ordered
    then new_sided_attribute ordered serie
    else let* t := new_attributes_trio order serie in Ok (ordered ++ t)).

Lemma step_ok V ordered s : serie_ok V s -> NoDup ordered -> incl ordered V ->
  exists o, step ordered s = Ok o /\ NoDup o /\ incl o V /\ exists p q, o = p ++ ordered ++ q.
Proof.
  intros OK ND IN. cbv beta. destruct (existsb (fun i => memb String.eqb i s) ordered) eqn:E.
  - apply (sided_ok V); auto. intros ->. discriminate.
  - destruct (trio_ok V s OK) as [t [-> [T1 [T2 [T3 _]]]]]. cbn [bind]. exists (ordered ++ t). split; auto.
    split; [|split].
    + apply NoDup_app'; auto. intros x I J. apply T2 in J.
      assert (existsb (fun i => memb String.eqb i s) ordered = true); [|congruence].
      apply existsb_exists. exists x. split; auto. apply memb_iff; auto.
    + intros x I. apply in_app_or in I. destruct I; auto.
    + exists [], t. auto.
Qed.

Lemma axes_ok V series : Forall (serie_ok V) series -> forall ordered, NoDup ordered -> incl ordered V ->
  exists o, foldM step series ordered = Ok o /\ NoDup o /\ incl o V /\ exists p q, o = p ++ ordered ++ q.
Proof.
  induction 1 as [|s series OK _ IH]; intros ordered ND IN.
  - exists ordered. split; auto. split; auto. split; auto. exists [], []. rewrite app_nil_r. auto.
  - destruct (step_ok V ordered s OK ND IN) as [o [Q [ND' [IN' [p [q E]]]]]]. cbn [foldM].
    rewrite Q. cbn [bind]. destruct (IH o ND' IN') as [o' [Q' [ND'' [IN'' [p' [q' E']]]]]]. exists o'. split; auto. split; auto. split; auto.
    exists (p' ++ p), (q ++ q'). rewrite E', E, !app_assoc. auto.
Qed.

Lemma adjacent_app a b l p q : adjacent a b l -> adjacent a b (p ++ l ++ q).
Proof.
  intros [u [v [-> | ->]]]; exists (p ++ u), (v ++ q); rewrite <- !app_assoc; simpl; auto.
Qed.

(** The first pair of the list is kept together. *)
Lemma axes_first V L a b L' : left_over V L -> L = [a; b] :: L' ->
  exists series o, get_attribute_trios L = Ok series /\ trios_list_to_parallel_axes order series = Ok o
    /\ NoDup o /\ incl o V /\ adjacent a b o.
Proof.
  intros LO E. unfold get_attribute_trios.
  destruct (trios_ok V (S (List.length L)) [] (List.concat L) L) as [series [Q [F C]]]; [lia | auto | simpl; tauto|].
  exists series. rewrite Q. unfold trios_list_to_parallel_axes.
  assert (H : exists s r, series = s :: r /\ exists t, s = a :: b :: t).
  { subst L. cbn [trios] in Q.
    destruct (Nat.eqb_spec (List.length (uniq [])) (List.length (uniq (List.concat ([a; b] :: L'))))) as [X|X].
    - exfalso. apply (uniq_less [] (List.concat ([a; b] :: L')) a); auto.
      + intros x [].
      + simpl. auto.
    - destruct (pull [a; b] L') as [[c L'']|].
      + match type of Q with (let* _ := ?x in _) = _ => destruct x as [r|]; [|discriminate] end.
        cbn [bind] in Q. inversion Q. exists ([a; b] ++ c), r. split; auto. exists c. auto.
      + match type of Q with (let* _ := ?x in _) = _ => destruct x as [r|]; [|discriminate] end.
        cbn [bind] in Q. inversion Q. exists [a; b], r. split; auto. exists []. auto. }
  destruct H as [s [r [-> [t ->]]]]. inversion F as [|? ? OK F']; subst.
  destruct (trio_ok V _ OK) as [t' [T [T1 [T2 [T3 [T4 _]]]]]].
  cbn [foldM]. cbn [existsb]. rewrite T. cbn [bind app].
  destruct (axes_ok V r F' t' T1 T3) as [o [Q' [ND [IN [p [q E']]]]]]. exists o. split; auto. split; auto. split; auto. split; auto.
  rewrite E'. apply adjacent_app. eapply T4. reflexivity.
Qed.
End Order.

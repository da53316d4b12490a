(** Proofs about the axes of a parallel plot. *)
From Coq Require Import Bool Arith QArith String Lia Permutation Sorted.
From Verif Require Import Base BaseProofs AxesModel AxesSpec.
From Coq Require Import List.
Import ListNotations.
Open Scope nat_scope.

Lemma memb_iff s l : memb String.eqb s l = true <-> In s l.
Proof.
  unfold memb. rewrite existsb_exists. split.
  - intros [x [I E]]. apply String.eqb_eq in E. subst; auto.
  - intros I. exists s. split; auto. apply String.eqb_refl.
Qed.
Lemma memb_not s l : memb String.eqb s l = false <-> ~ In s l.
Proof. rewrite <- memb_iff. destruct (memb String.eqb s l); split; congruence. Qed.

Lemma NoDup_app' {A} (l m : list A) : NoDup l -> NoDup m -> (forall x, In x l -> ~ In x m) -> NoDup (l ++ m).
Proof.
  induction l as [|x l IH]; simpl; intros Hl Hm Hd; auto. inversion Hl; subst.
  constructor; [|apply IH; auto]. rewrite in_app_iff. intros [I|I]; [auto|]. apply (Hd x); auto.
Qed.

(** *** Pairs *)
Fixpoint pairs (l : list string) : list (list string) :=
  match l with
  | [] => []
  | a :: r => map (fun b => [a; b]) r ++ pairs r
  end.

Lemma pairs_in l p : In p (pairs l) -> exists a b, p = [a; b] /\ In a l /\ In b l.
Proof.
  induction l as [|x r IH]; simpl; intros I; [tauto|].
  apply in_app_or in I. destruct I as [I|I].
  - apply in_map_iff in I. destruct I as [b [<- J]]. exists x, b. auto.
  - destruct (IH I) as [a [b [-> [A B]]]]. exists a, b. auto.
Qed.
Lemma pairs_has l a b : In a l -> In b l -> a <> b -> In [a; b] (pairs l) \/ In [b; a] (pairs l).
Proof.
  induction l as [|x r IH]; simpl; intros A B N; [tauto|].
  destruct A as [->|A], B as [->|B].
  - congruence.
  - left. apply in_or_app. left. apply in_map_iff. eauto.
  - right. apply in_or_app. left. apply in_map_iff. eauto.
  - destruct (IH A B N) as [H|H]; [left|right]; apply in_or_app; auto.
Qed.
Lemma pairs_ne l a b : NoDup l -> In [a; b] (pairs l) -> a <> b /\ ~ In [b; a] (pairs l).
Proof.
  induction l as [|x r IH]; simpl; intros ND I; [tauto|]. inversion ND as [|? ? N D]; subst.
  apply in_app_or in I. destruct I as [I|I].
  - apply in_map_iff in I. destruct I as [c [E J]]. inversion E; subst. split; [congruence|].
    intros K. apply in_app_or in K. destruct K as [K|K].
    + apply in_map_iff in K. destruct K as [d [E' K]]. inversion E'; subst. auto.
    + apply pairs_in in K. destruct K as [u [v [E' [U V]]]]. inversion E'; subst. auto.
  - destruct (IH D I) as [A B]. split; auto. intros K. apply in_app_or in K. destruct K as [K|K]; auto.
    apply in_map_iff in K. destruct K as [c [E J]]. inversion E; subst.
    apply pairs_in in I. destruct I as [u [v [E' [U V]]]]. inversion E'; subst. auto.
Qed.
Lemma pairs_nodup l : NoDup l -> NoDup (pairs l).
Proof.
  induction l as [|x r IH]; simpl; intros ND; [constructor|]. inversion ND as [|? ? N D]; subst.
  apply NoDup_app'; auto.
  - apply FinFun.Injective_map_NoDup; auto. intros u v E. inversion E; auto.
  - intros p I J. apply in_map_iff in I. destruct I as [b [<- I]].
    apply pairs_in in J. destruct J as [u [v [E [U V]]]]. inversion E; subst; auto.
Qed.
Lemma pairs_concat l : 2 <= List.length l -> forall x, In x (List.concat (pairs l)) <-> In x l.
Proof.
  intros L x. rewrite in_concat. split.
  - intros [p [I J]]. apply pairs_in in I. destruct I as [a [b [-> [A B]]]]. simpl in J.
    destruct J as [<-|[<-|[]]]; auto.
  - intros I. destruct l as [|u [|v r]]; simpl in L; try lia.
    destruct I as [<-|I].
    + exists [u; v]. simpl; auto.
    + exists [u; x]. split; [|simpl; auto]. apply in_or_app. left. apply in_map_iff. exists x. auto.
Qed.

(** *** What is sorted *)
Lemma insert_perm x l : Permutation (insert x l) (x :: l).
Proof.
  induction l as [|y l IH]; simpl; auto. destruct (leb_scored x y); auto.
  rewrite IH. apply perm_swap.
Qed.
Lemma sorted_perm l : Permutation (sorted l) l.
Proof. induction l as [|x l IH]; simpl; auto. rewrite insert_perm. auto. Qed.
Definition below (x y : scored) : Prop := (fst x <= fst y)%Q.
Lemma leb_below x y : leb_scored x y = true -> below x y.
Proof.
  unfold leb_scored, below. destruct (Qeq_bool (fst x) (fst y)) eqn:E.
  - intros _. apply Qeq_bool_iff in E. rewrite E. apply Qle_refl.
  - apply Qle_bool_iff.
Qed.
Lemma leb_above x y : leb_scored x y = false -> below y x.
Proof.
  unfold leb_scored, below. destruct (Qeq_bool (fst x) (fst y)) eqn:E.
  - intros _. apply Qeq_bool_iff in E. rewrite E. apply Qle_refl.
  - intros H. destruct (Qlt_le_dec (fst y) (fst x)) as [L|L]; [apply Qlt_le_weak; auto|].
    apply Qle_bool_iff in L. congruence.
Qed.
Lemma insert_sorted x l : StronglySorted below l -> StronglySorted below (insert x l).
Proof.
  induction l as [|y l IH]; simpl; intros S; [constructor; auto; constructor|].
  inversion S as [|? ? S' F]; subst. destruct (leb_scored x y) eqn:E.
  - constructor; auto. constructor; [apply leb_below; auto|].
    eapply Forall_impl; [|exact F]. intros z Z. unfold below in *. apply leb_below in E. unfold below in E.
    eapply Qle_trans; eauto.
  - constructor; auto. apply (Permutation_Forall (Permutation_sym (insert_perm x l))).
    constructor; auto. apply leb_above; auto.
Qed.
Lemma sorted_sorted l : StronglySorted below (sorted l).
Proof. induction l as [|x l IH]; simpl; [constructor|apply insert_sorted; auto]. Qed.
Lemma sorted_last l x r : rev (sorted l) = x :: r -> forall y, In y l -> (fst y <= fst x)%Q.
Proof.
  intros E y I. assert (S : sorted l = rev r ++ [x]).
  { rewrite <- (rev_involutive (sorted l)), E. auto. }
  assert (J : In y (sorted l)) by (eapply Permutation_in; [symmetry; apply sorted_perm | auto]).
  pose proof (sorted_sorted l) as H. rewrite S in H, J. clear - H J.
  induction (rev r) as [|z t IH]; simpl in *.
  - destruct J as [->|[]]. apply Qle_refl.
  - inversion H as [|? ? H' F]; subst. destruct J as [->|J]; auto.
    rewrite Forall_forall in F. apply (F x). apply in_or_app; simpl; auto.
Qed.

(** *** Associations *)
Section Assoc.
Variable values : string -> list Q.
Variable r2 : list Q -> list Q -> Q.

Lemma constant_iff l : constant l = true <-> fixed l.
Proof.
  unfold fixed. destruct l as [|x l]; simpl.
  - split; [discriminate|intros [x [H _]]; congruence].
  - rewrite forallb_forall. split.
    + intros H. exists x. split; [discriminate|]. intros y [<-|I]; [reflexivity|].
      symmetry. apply Qeq_bool_iff. auto.
    + intros [z [_ H]] y I. apply Qeq_bool_iff. rewrite (H x (or_introl eq_refl)), (H y (or_intror I)). reflexivity.
Qed.

Definition free (a : string) : bool := negb (constant (values a)).
Definition score (p : list string) : scored :=
  match p with [a; b] => (r2 (values a) (values b), p) | _ => (0%Q, p) end.

Lemma associate_spec a attrs :
  fst (associate values r2 a attrs)
  = map score (map (fun b => [a; b]) (filter (fun b => free b && negb (String.eqb a b)) attrs))
  /\ snd (associate values r2 a attrs) = filter (fun b => constant (values b)) attrs.
Proof.
  unfold associate.
  match goal with |- context [fold_left ?g attrs _] => set (f := g) end.
  assert (H : forall acc, fst (fold_left f attrs acc) = fst acc ++
       map score (map (fun b => [a; b]) (filter (fun b => free b && negb (String.eqb a b)) attrs))
    /\ snd (fold_left f attrs acc) = snd acc ++ filter (fun b => constant (values b)) attrs).
  { induction attrs as [|b attrs IH]; intros acc; simpl.
    - rewrite !app_nil_r. auto.
    - destruct (IH (f acc b)) as [H1 H2]. rewrite H1, H2. unfold f, free.
      destruct (constant (values b)) eqn:E; simpl.
      + rewrite <- app_assoc. auto.
      + destruct (String.eqb a b); simpl; auto. rewrite <- app_assoc. auto. }
  apply (H ([], [])).
Qed.

Lemma filter_free_ne a l : ~ In a l -> filter (fun b => free b && negb (String.eqb a b)) l = filter free l.
Proof.
  intros N. apply filter_ext_in. intros b I. replace (String.eqb a b) with false; [apply andb_true_r|].
  symmetry. apply String.eqb_neq. intros ->. auto.
Qed.

Lemma associations_spec attrs : NoDup attrs ->
  fst (associations values r2 attrs) = map score (pairs (filter free attrs))
  /\ (forall x, In x (snd (associations values r2 attrs)) <-> In x attrs /\ fixed (values x)).
Proof.
  induction attrs as [|a r IH]; intros ND; [simpl; tauto|].
  inversion ND as [|? ? N D]; subst. destruct (IH D) as [H1 H2]. cbn [associations].
  destruct (constant (values a)) eqn:E.
  - unfold free in *. simpl. rewrite E. simpl. split; auto. intros x. simpl. rewrite H2. apply constant_iff in E. split.
    + intros [->|[I F]]; auto.
    + intros [[->|I] F]; auto.
  - destruct (associate_spec a (a :: r)) as [S1 S2]. split; cbn [fst snd].
    + rewrite S1, H1.
      change (filter (fun b => free b && negb (String.eqb a b)) (a :: r))
        with (if free a && negb (String.eqb a a) then a :: filter (fun b => free b && negb (String.eqb a b)) r
              else filter (fun b => free b && negb (String.eqb a b)) r).
      rewrite String.eqb_refl, andb_false_r, filter_free_ne by auto. rewrite <- map_app.
      cbn [filter]. unfold free at 3. rewrite E. reflexivity.
    + intros x. rewrite in_app_iff, S2, filter_In, H2, constant_iff. simpl. tauto.
Qed.

Lemma unreal_pairs attrs q : map snd (unreal attrs q) = pairs attrs.
Proof.
  revert q. induction attrs as [|a r IH]; intros q; simpl; auto.
  rewrite map_app, IH. f_equal. rewrite map_map. simpl.
  rewrite <- (map_map snd (fun b => [a; b])). f_equal. clear. generalize 0 as n.
  induction r as [|b r IH]; simpl; intros n; auto. f_equal. auto.
Qed.
End Assoc.

(** *** Series *)
Definition pair_ok (V p : list string) : Prop := exists a b, p = [a; b] /\ a <> b /\ In a V /\ In b V.
Definition left_over (V : list string) (L : list (list string)) : Prop :=
  (forall p, In p L -> pair_ok V p) /\ NoDup L /\ (forall a b, In [a; b] L -> ~ In [b; a] L).
(** Two pairs with one attribute in common. *)
Inductive serie_ok (V : list string) : list string -> Prop :=
| serie_pair a b : a <> b -> In a V -> In b V -> serie_ok V [a; b]
| serie_trio a b c d m x y : In m V -> In x V -> In y V -> m <> x -> m <> y -> x <> y ->
    (a = m /\ b = x \/ a = x /\ b = m) -> (c = m /\ d = y \/ c = y /\ d = m) -> serie_ok V [a; b; c; d].

Lemma pull_some first l a l' : pull first l = Some (a, l') ->
  (exists i, In i a /\ In i first) /\ exists u v, l = u ++ a :: v /\ l' = u ++ v /\ forall p, In p u -> forall i, In i p -> ~ In i first.
Proof.
  revert l'. induction l as [|p l IH]; simpl; intros l' H; [discriminate|].
  destruct (existsb (fun i => memb String.eqb i first) p) eqn:E.
  - injection H as -> ->. apply existsb_exists in E. destruct E as [i [I J]]. apply memb_iff in J.
    split; [exists i; auto|]. exists [], l'. simpl. tauto.
  - destruct (pull first l) as [[a' l'']|] eqn:P; [|discriminate]. simpl in H. injection H as -> <-.
    destruct (IH _ eq_refl) as [X [u [v [-> [-> U]]]]]. split; auto. exists (p :: u), v. split; auto. split; auto.
    intros q [<-|Q]; [|exact (U q Q)]. intros i I J. apply memb_iff in J.
    assert (existsb (fun i => memb String.eqb i first) p = true) by (apply existsb_exists; exists i; auto). congruence.
Qed.
Lemma pull_none first l : pull first l = None -> forall p, In p l -> forall i, In i p -> ~ In i first.
Proof.
  induction l as [|p l IH]; simpl; intros H q I i Ii Jf; [tauto|].
  destruct (existsb (fun i => memb String.eqb i first) p) eqn:E; [discriminate|].
  destruct (pull first l) as [[? ?]|] eqn:P; [discriminate|]. destruct I as [<-|I].
  - apply memb_iff in Jf. assert (existsb (fun i => memb String.eqb i first) p = true) by (apply existsb_exists; eauto). congruence.
  - exact (IH eq_refl q I i Ii Jf).
Qed.

Lemma left_over_mid V u p v : left_over V (u ++ p :: v) -> left_over V (u ++ v).
Proof.
  intros [A [B C]]. split; [|split].
  - intros q I. apply A. apply in_app_or in I. apply in_or_app. simpl. tauto.
  - eapply NoDup_remove_1; eauto.
  - intros a b I J. apply (C a b); apply in_app_or in I; apply in_app_or in J; apply in_or_app; simpl; tauto.
Qed.
Lemma serie_of V first l a u v : left_over V (first :: l) -> l = u ++ a :: v ->
  (exists i, In i a /\ In i first) -> serie_ok V (first ++ a).
Proof.
  intros [A [B C]] -> [i [Ia If]].
  destruct (A first (or_introl eq_refl)) as [x [y [-> [N [X Y]]]]].
  assert (I : In a (u ++ a :: v)) by (apply in_or_app; simpl; auto).
  destruct (A a (or_intror I)) as [z [w [-> [M [Z W]]]]].
  assert (N1 : [x; y] <> [z; w]) by (intros E; inversion B as [|? ? H _]; subst; apply H; rewrite E; auto).
  assert (N2 : [y; x] <> [z; w]) by (intros E; apply (C x y); [left; auto | right; rewrite E; auto]).
  cbn [app]. simpl in Ia, If.
  destruct If as [<-|[<-|[]]], Ia as [->|[->|[]]].
  - apply (serie_trio V _ _ _ _ x y w); auto; try congruence.
  - apply (serie_trio V _ _ _ _ x y z); auto; try congruence.
  - apply (serie_trio V _ _ _ _ y x w); auto; try congruence.
  - apply (serie_trio V _ _ _ _ y x z); auto; try congruence.
Qed.

Lemma uniq_in x l : In x (uniq l) <-> In x l.
Proof. apply nodup_In. Qed.
Lemma uniq_nodup l : NoDup (uniq l).
Proof. apply NoDup_nodup. Qed.
Lemma uniq_same l m : (forall x, In x l <-> In x m) -> List.length (uniq l) = List.length (uniq m).
Proof.
  intros H. apply Permutation_length. apply NoDup_Permutation; try apply uniq_nodup.
  intros x. rewrite !uniq_in. auto.
Qed.
Lemma uniq_less l m x : incl l m -> In x m -> ~ In x l -> List.length (uniq l) <> List.length (uniq m).
Proof.
  intros H I N E. apply N. rewrite <- uniq_in. rewrite <- uniq_in in I. revert I.
  apply NoDup_length_incl; [apply uniq_nodup | lia |]. intros y Y. rewrite uniq_in in *. exact (H y Y).
Qed.

Lemma trios_ok V fuel : forall picked all L, List.length L < fuel -> left_over V L ->
  (forall x, In x all <-> In x picked \/ In x (List.concat L)) ->
  exists series, trios fuel picked all L = Ok series /\ Forall (serie_ok V) series
    /\ (forall x, In x all -> In x picked \/ In x (List.concat series)).
Proof.
  induction fuel as [|fuel IH]; intros picked all L F LO H; [lia|]. cbn [trios].
  destruct (Nat.eqb_spec (List.length (uniq picked)) (List.length (uniq all))) as [E|E].
  - exists []. split; auto. split; auto. intros x I. left. rewrite <- uniq_in. rewrite <- uniq_in in I. revert I.
    apply NoDup_length_incl; [apply uniq_nodup | lia |]. intros y Y. rewrite uniq_in in *. apply H; auto.
  - destruct L as [|first L].
    { exfalso. apply E. apply uniq_same. intros x. rewrite H. simpl. tauto. }
    destruct (pull first L) as [[a L']|] eqn:P.
    + destruct (pull_some _ _ _ _ P) as [S [u [v [E1 [E2 _]]]]].
      pose proof (serie_of V first L a u v LO E1 S) as OK.
      assert (LO' : left_over V L').
      { apply (left_over_mid V [] first L) in LO. simpl in LO. subst. eapply left_over_mid; eauto. }
      destruct (IH (picked ++ first ++ a) all L') as [series [Q1 [Q2 Q3]]]; auto.
      { subst. rewrite app_length in *. simpl in F. rewrite app_length in F. simpl in F. lia. }
      { intros x. rewrite H. simpl. subst L L'. rewrite !concat_app. simpl. rewrite !in_app_iff. tauto. }
      rewrite Q1. exists ((first ++ a) :: series). split; [reflexivity|]. split; [constructor; auto|].
      intros x I. destruct (Q3 x I) as [J|J].
      * apply in_app_or in J. destruct J as [J|J]; auto. right. simpl. apply in_or_app; auto.
      * right. simpl. apply in_or_app; auto.
    + assert (LO' : left_over V L) by (apply (left_over_mid V [] first L) in LO; auto).
      destruct (IH (picked ++ first) all L) as [series [Q1 [Q2 Q3]]]; auto.
      { simpl in F. lia. }
      { intros x. rewrite H. simpl. rewrite !in_app_iff. tauto. }
      rewrite Q1. exists (first :: series). split; [reflexivity|]. split.
      * constructor; auto. destruct LO as [A _]. destruct (A first (or_introl eq_refl)) as [x [y [-> [N [X Y]]]]]. constructor; auto.
      * intros x I. destruct (Q3 x I) as [J|J].
        { apply in_app_or in J. destruct J as [J|J]; auto. right. simpl. apply in_or_app; auto. }
        { right. simpl. apply in_or_app; auto. }
Qed.

(** *** Axes *)
Inductive mate : list string -> string -> string -> Prop :=
| mate_1 a b l : mate (a :: b :: l) a b
| mate_2 a b l : mate (a :: b :: l) b a
| mate_3 a b l e x : mate l e x -> mate (a :: b :: l) e x.

Ltac streq :=
  repeat match goal with
  | |- context [String.eqb ?a ?b] =>
      destruct (String.eqb_spec a b); [try congruence|try congruence]
  | |- context [string_dec ?a ?b] => destruct (string_dec a b); [try congruence|try congruence]
  end.

Lemma mate_in s e x : mate s e x -> In e s /\ In x s.
Proof. induction 1; simpl; tauto. Qed.

Lemma instances_ok V front e s ordered : serie_ok V s -> In e s ->
  exists o, instances front e s (seq 0 (count e s)) ordered = Ok o
  /\ (o = ordered /\ (forall x, mate s e x -> In x ordered)
      \/ exists x, mate s e x /\ ~ In x ordered /\ In x V /\ o = if front then x :: ordered else ordered ++ [x]).
Proof.
  assert (ONE : forall x, (exists o, (if memb String.eqb x ordered then Ok ordered else Ok (if front then x :: ordered else ordered ++ [x])) = Ok o
     /\ (o = ordered /\ In x ordered \/ ~ In x ordered /\ o = if front then x :: ordered else ordered ++ [x]))).
  { intros x. destruct (memb String.eqb x ordered) eqn:M.
    - exists ordered. apply memb_iff in M. auto.
    - eexists. split; [reflexivity|]. apply memb_not in M. auto. }
  assert (TWO : forall x y, (exists o, (if memb String.eqb x ordered then
       (if memb String.eqb y ordered then Ok ordered else Ok (if front then y :: ordered else ordered ++ [y]))
        else Ok (if front then x :: ordered else ordered ++ [x])) = Ok o
     /\ (o = ordered /\ In x ordered /\ In y ordered \/ ~ In x ordered /\ o = (if front then x :: ordered else ordered ++ [x])
         \/ ~ In y ordered /\ o = if front then y :: ordered else ordered ++ [y]))).
  { intros x y. destruct (memb String.eqb x ordered) eqn:M.
    - destruct (ONE y) as [o [Q1 Q2]]. rewrite Q1. exists o. split; auto. apply memb_iff in M. tauto.
    - eexists. split; [reflexivity|]. apply memb_not in M. auto. }
  intros OK I. destruct OK as [a b N A B|a b c d m x y M X Y N1 N2 N3 P1 P2].
  - assert (K : forall p q, mate [a; b] p q -> p = a /\ q = b \/ p = b /\ q = a).
    { intros p q H. inversion H as [| |? ? ? ? ? H']; subst; auto. inversion H'. }
    simpl in I. destruct I as [<-|[<-|[]]].
    + replace (count a [a; b]) with 1 by (unfold count; simpl; streq; auto).
      cbn [seq instances skipn Nat.mul index_of]. rewrite String.eqb_refl. cbn [of_option bind].
      change (0 + 0 + 1 - 2 * ((0 + 0) mod 2)) with 1. cbn [nth_error of_option bind].
      destruct (ONE b) as [o [Q1 Q2]]. exists o. split; auto. destruct Q2 as [[-> Q2]|[Q2 ->]].
      * left. split; auto. intros z H. apply K in H. destruct H as [[_ ->]|[E _]]; auto. congruence.
      * right. exists b. split; [constructor|]. auto.
    + replace (count b [a; b]) with 1 by (unfold count; simpl; streq; auto).
      cbn [seq instances skipn Nat.mul index_of]. destruct (String.eqb_spec b a); [congruence|]. rewrite String.eqb_refl. cbn [of_option option_map bind].
      change (0 + 1 + 1 - 2 * ((0 + 1) mod 2)) with 0. cbn [nth_error of_option bind].
      destruct (ONE a) as [o [Q1 Q2]]. exists o. split; auto. destruct Q2 as [[-> Q2]|[Q2 ->]].
      * left. split; auto. intros z H. apply K in H. destruct H as [[E _]|[_ ->]]; auto. congruence.
      * right. exists a. split; [constructor|]. auto.
  - assert (K : forall p q, mate [a; b; c; d] p q -> (p = a /\ q = b \/ p = b /\ q = a) \/ (p = c /\ q = d \/ p = d /\ q = c)).
    { intros p q H. inversion H as [| |? ? ? ? ? H']; subst; auto. inversion H' as [| |? ? ? ? ? H'']; subst; auto. inversion H''. }
    assert (IM : e = m \/ e = x \/ e = y).
    { simpl in I. intuition congruence. }
    assert (MM : mate [a; b; c; d] m x /\ mate [a; b; c; d] x m /\ mate [a; b; c; d] m y /\ mate [a; b; c; d] y m).
    { destruct P1 as [[-> ->]|[-> ->]], P2 as [[-> ->]|[-> ->]]; repeat split; repeat constructor. }
    destruct MM as [MM1 [MM2 [MM3 MM4]]].
    assert (G : forall P : Prop, ((instances front e [a; b; c; d] (seq 0 (count e [a; b; c; d])) ordered
              = if String.eqb e m then (if memb String.eqb x ordered then
       (if memb String.eqb y ordered then Ok ordered else Ok (if front then y :: ordered else ordered ++ [y]))
        else Ok (if front then x :: ordered else ordered ++ [x]))
          else (if memb String.eqb m ordered then Ok ordered else Ok (if front then m :: ordered else ordered ++ [m]))) -> P) -> P).
    { intros P H. apply H. clear - IM N1 N2 N3 P1 P2.
      destruct IM as [ -> | [ -> | -> ] ], P1 as [[-> ->]|[-> ->]], P2 as [[-> ->]|[-> ->]];
        (unfold count; cbn [count_occ]; repeat (destruct (string_dec _ _); try congruence); cbn [seq instances skipn Nat.mul Nat.add index_of];
         repeat (match goal with |- context [String.eqb ?u ?v] => destruct (String.eqb_spec u v); try congruence end; cbn [of_option option_map bind]);
         reflexivity). }
    apply G. clear G. intros ->. destruct (String.eqb_spec e m) as [->|NE].
    + destruct (TWO x y) as [o [Q1 Q2]]. exists o. split; auto. destruct Q2 as [[-> [Q2 Q3]]|[[Q2 ->]|[Q2 ->]]].
      * left. split; auto. intros z H. apply K in H. intuition congruence.
      * right. exists x. auto.
      * right. exists y. auto.
    + destruct (ONE m) as [o [Q1 Q2]]. exists o. split; auto. destruct Q2 as [[-> Q2]|[Q2 ->]].
      * left. split; auto. intros z H. apply K in H. intuition congruence.
      * right. exists m. split; [|auto]. destruct IM as [ -> | [ -> | -> ] ]; congruence || auto.
Qed.

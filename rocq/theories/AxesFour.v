(** Up to four attributes that vary, none is lost. *)
From Coq Require Import Bool Arith QArith String Lia Permutation Sorted.
From Verif Require Import Base BaseProofs AxesModel AxesSpec AxesProofs AxesMain.
From Coq Require Import List.
Import ListNotations.
Open Scope nat_scope.

Definition same (p : list string) (a b : string) : Prop := p = [a; b] \/ p = [b; a].
Definition full (V : list string) (L : list (list string)) : Prop :=
  left_over V L /\ forall a b, In a V -> In b V -> a <> b -> exists p, In p L /\ same p a b.

Lemma pairs_full V L : NoDup V -> Permutation L (pairs V) -> full V L.
Proof.
  intros ND P. split; [split; [|split]|].
  - intros p I. assert (J : In p (pairs V)) by (eapply Permutation_in; eauto).
    destruct (pairs_in _ _ J) as [a [b [-> [A B]]]]. exists a, b. split; auto. split; auto. eapply pairs_ne; eauto.
  - eapply Permutation_NoDup; [symmetry; eauto | apply pairs_nodup; auto].
  - intros a b I J. apply (Permutation_in _ P) in I, J. exact (proj2 (pairs_ne _ _ _ ND I) J).
  - intros a b A B N. destruct (pairs_has _ _ _ A B N) as [I|I];
      (eexists; split; [eapply Permutation_in; [symmetry; exact P | exact I] | red; auto]).
Qed.

Lemma same_once V p L q a b : left_over V (p :: L) -> In q L -> same p a b -> same q a b -> False.
Proof.
  intros [_ [ND FL]] I [E|E] [E'|E']; subst.
  - inversion ND; auto.
  - apply (FL a b); simpl; auto.
  - apply (FL b a); simpl; auto.
  - inversion ND; auto.
Qed.

Section Order.
Variable order : list string -> list string.
Hypothesis OR : lists_sets order.

Lemma full_length (V : list string) (L : list (list string)) o : NoDup V -> NoDup o -> incl o V -> List.length V <= List.length o -> Permutation o V.
Proof.
  intros NV NO I LE. apply NoDup_Permutation; auto. intros x. split; [apply I|].
  apply (NoDup_length_incl NO LE I).
Qed.

(** The first serie, when there are three attributes at least. *)
Lemma first_serie V L : full V L -> NoDup V -> 3 <= List.length V ->
  exists first c u v fuel, L = first :: u ++ c :: v /\ serie_ok V (first ++ c)
    /\ List.length (u ++ v) < fuel
    /\ get_attribute_trios L = (let* r := trios fuel (first ++ c) (List.concat L) (u ++ v) in Ok ((first ++ c) :: r)).
Proof.
  intros [LO F] ND LE.
  destruct L as [|first L].
  { destruct V as [|a [|b V]]; simpl in LE; try lia. destruct (F a b) as [p [[] _]]; simpl; auto.
    inversion ND as [|? ? X _]; subst. intros ->. apply X; simpl; auto. }
  destruct (proj1 LO first (or_introl eq_refl)) as [a [b [-> [NAB [A B]]]]].
  assert (C : exists c, In c V /\ c <> a /\ c <> b).
  { destruct (in_dec string_dec a V) as [_|]; [|contradiction].
    assert (H : exists c, In c V /\ ~ In c [a; b]).
    { destruct (Exists_dec (fun c => ~ In c [a; b]) V) as [X|X].
      - intros c. destruct (in_dec string_dec c [a; b]); [right|left]; tauto.
      - apply Exists_exists in X. auto.
      - exfalso. assert (incl V [a; b]) as I.
        { intros c Ic. destruct (in_dec string_dec c [a; b]); auto. exfalso. apply X. apply Exists_exists. eauto. }
        pose proof (NoDup_incl_length ND I). simpl in *. lia. }
    destruct H as [c [Ic N]]. exists c. simpl in N. split; auto. split; intros ->; apply N; auto. }
  destruct C as [c [Ic [Na Nb]]].
  destruct (F a c A Ic) as [p [Ip Sp]]; auto.
  assert (IpL : In p L).
  { destruct Ip as [<-|]; auto. exfalso. destruct Sp as [E|E]; inversion E; congruence. }
  destruct (pull [a; b] L) as [[q L']|] eqn:P.
  2: { exfalso. apply (pull_none _ _ P p IpL a); simpl; auto. destruct Sp as [->| ->]; simpl; auto. }
  destruct (pull_some _ _ _ _ P) as [SH [u [v [-> [-> _]]]]].
  exists [a; b], q, u, v, (S (List.length (u ++ q :: v))). split; auto.
  split; [eapply serie_of; eauto|]. split; [rewrite !app_length; simpl; lia|].
  unfold get_attribute_trios. cbn [trios].
  destruct (Nat.eqb_spec (List.length (uniq [])) (List.length (uniq (List.concat ([a; b] :: u ++ q :: v))))) as [X|X].
  { exfalso. apply (uniq_less [] (List.concat ([a; b] :: u ++ q :: v)) a); auto; [intros x []|simpl; auto]. }
  rewrite P. cbn [List.length app]. reflexivity.
Qed.

Lemma three V L : full V L -> NoDup V -> 3 <= List.length V ->
  exists series o, get_attribute_trios L = Ok series /\ trios_list_to_parallel_axes order series = Ok o
    /\ NoDup o /\ incl o V /\ 3 <= List.length o.
Proof.
  intros F ND LE. destruct (first_serie V L F ND LE) as [first [c [u [v [fuel [E [OK [LF Q]]]]]]]].
  destruct F as [LO F]. assert (LO' : left_over V (u ++ v)).
  { rewrite E in LO. apply (left_over_mid V [] first) in LO. simpl in LO. eapply left_over_mid; eauto. }
  destruct (trios_ok V fuel (first ++ c) (List.concat L) (u ++ v) LF LO') as [series [Q1 [Q2 _]]].
  { intros x. rewrite E. simpl. rewrite !concat_app. simpl. rewrite !in_app_iff. tauto. }
  rewrite Q1 in Q. cbn [bind] in Q. exists ((first ++ c) :: series). unfold trios_list_to_parallel_axes. cbn [foldM existsb].
  assert (four : exists p q r s, first ++ c = [p; q; r; s]).
  { destruct (proj1 LO first) as [p [q [-> _]]]; [rewrite E; simpl; auto|].
    destruct (proj1 LO c) as [r [s [-> _]]]; [rewrite E; right; apply in_or_app; simpl; auto|]. simpl. eauto 10. }
  destruct four as [p [q [r [s4 FC]]]].
  destruct (trio_ok order OR V _ OK) as [t [T [T1 [T2 [T3 [_ T5]]]]]]. rewrite T. cbn [bind app].
  destruct (axes_ok order OR V series Q2 t T1 T3) as [o [Q' [NO [IO [h [k E']]]]]].
  exists o. split; auto. split; auto. split; auto. split; auto. rewrite E', !app_length.
  destruct (T5 _ _ _ _ FC) as [x [m [y [-> _]]]]. simpl. lia.
Qed.

Lemma four V L : full V L -> NoDup V -> List.length V = 4 ->
  exists series o, get_attribute_trios L = Ok series /\ trios_list_to_parallel_axes order series = Ok o
    /\ NoDup o /\ incl o V /\ 4 <= List.length o.
Proof.
  intros F ND LE. destruct (first_serie V L F ND ltac:(lia)) as [first [c [u [v [fuel [E [OK [LF Q]]]]]]]].
  destruct F as [LO F].
  assert (LO1 : left_over V (u ++ v)).
  { pose proof LO as LO'. rewrite E in LO'. apply (left_over_mid V [] first) in LO'. simpl in LO'. eapply left_over_mid; eauto. }
  destruct (proj1 LO first) as [a [b [E1 [NAB [A B]]]]]; [rewrite E; simpl; auto|].
  destruct (proj1 LO c) as [a2 [b2 [E2 [NAB2 [A2 B2]]]]]; [rewrite E; right; apply in_or_app; simpl; auto|].
  destruct (trio_ok order OR V _ OK) as [t [T [T1 [T2 [T3 [_ T5]]]]]].
  destruct (T5 a b a2 b2) as [x [m [y [-> [[M1 M2] [N1 [N2 N3]]]]]]]; [rewrite E1, E2; reflexivity|].
  assert (D : exists d, In d V /\ ~ In d [x; m; y]).
  { destruct (Exists_dec (fun d => ~ In d [x; m; y]) V) as [X|X].
    - intros d. destruct (in_dec string_dec d [x; m; y]); [right|left]; tauto.
    - apply Exists_exists in X. auto.
    - exfalso. assert (incl V [x; m; y]) as I.
      { intros d Id. destruct (in_dec string_dec d [x; m; y]); auto. exfalso. apply X. apply Exists_exists. eauto. }
      pose proof (NoDup_incl_length ND I). simpl in *. lia. }
  destruct D as [d [Id Nd]].
  assert (VV : forall z, In z V -> z = d \/ In z [x; m; y]).
  { assert (ND4 : NoDup (d :: [x; m; y])) by (constructor; auto).
    intros z Iz. assert (Permutation (d :: [x; m; y]) V) as P.
    { apply (full_length V L); auto; [|simpl; lia]. intros w [<-|W]; auto. }
    apply Permutation_sym in P. apply (Permutation_in _ P) in Iz. destruct Iz as [<-|]; auto. }
  assert (X : In x V) by (apply T3; simpl; auto). assert (Y : In y V) by (apply T3; simpl; auto).
  assert (M : In m V) by (apply T3; simpl; auto).
  assert (Dx : d <> x) by (intros ->; apply Nd; simpl; auto).
  assert (Dy : d <> y) by (intros ->; apply Nd; simpl; auto).
  assert (Dm : d <> m) by (intros ->; apply Nd; simpl; auto).
  assert (FM : forall e, mate (first ++ c) e m -> same first e m \/ same c e m).
  { intros e H. rewrite E1, E2 in *. simpl in H. inversion H as [| |? ? ? ? ? H']; subst; [left; red; auto|left; red; auto|].
    right. inversion H' as [| |? ? ? ? ? H'']; subst; [red; auto|red; auto|]. inversion H''. }
  apply FM in M1, M2.
  assert (REST : forall p z, In p (u ++ v) -> z = x \/ z = y -> same p z m -> False).
  { intros p z I Z S.
    assert (PM : left_over V (c :: first :: u ++ v)).
    { destruct LO as [L1 [L2 L3]]. rewrite E in L1, L2, L3.
      assert (PP : forall q, In q (c :: first :: u ++ v) -> In q (first :: u ++ c :: v)).
      { intros q [<-|[<-|K]]; [right; apply in_or_app; simpl; auto | simpl; auto | right]. apply in_app_or in K. apply in_or_app; simpl; tauto. }
      split; [intros q K; apply L1; auto|]. split; [|intros p' q' K K'; apply (L3 p' q'); auto].
      apply (Permutation_NoDup (l := first :: u ++ c :: v)); auto.
      rewrite perm_swap. constructor. symmetry. apply Permutation_middle. }
    assert (PM' : left_over V (first :: u ++ v)) by (apply (left_over_mid V [] c) in PM; auto).
    assert (W : same first z m \/ same c z m) by (destruct Z as [->| ->]; auto).
    destruct W as [W|W]; [apply (same_once V first (u ++ v) p z m) | apply (same_once V c (first :: u ++ v) p z m)]; simpl; auto. }
  assert (HAS : forall z, In z V -> z <> d -> exists p, In p (u ++ v) /\ same p z d).
  { intros z Iz Nz. destruct (F z d Iz Id Nz) as [p [Ip Sp]]. exists p. split; auto.
    rewrite E in Ip.
    assert (DI : In d p) by (destruct Sp as [->| ->]; simpl; auto).
    destruct Ip as [<-|Ip]; [exfalso; apply Nd, T2; apply in_or_app; auto|].
    apply in_app_or in Ip. apply in_or_app. destruct Ip as [Ip|[<-|Ip]]; auto.
    exfalso; apply Nd, T2; apply in_or_app; auto. }
  destruct (u ++ v) as [|f2 l2] eqn:UV.
  { destruct (HAS x X) as [p [[] _]]; auto. }
  destruct fuel as [|fuel]; [simpl in LF; lia|]. cbn [trios] in Q.
  destruct (Nat.eqb_spec (List.length (uniq (first ++ c))) (List.length (uniq (List.concat L)))) as [EQ|EQ].
  { exfalso. apply (uniq_less (first ++ c) (List.concat L) d); auto.
    - intros z Iz. rewrite E. simpl. rewrite !concat_app. simpl. apply in_app_or in Iz. rewrite !in_app_iff. tauto.
    - destruct (HAS x X) as [p [Ip Sp]]; auto. apply in_concat. exists p. rewrite <- UV in Ip. split.
      + rewrite E. right. apply in_app_or in Ip. apply in_or_app. simpl; tauto.
      + destruct Sp as [->| ->]; simpl; auto.
    - intros I. apply Nd, T2; auto. }
  assert (HAS2 : forall z, In z V -> z <> d -> ~ same f2 z d -> exists p, In p l2 /\ same p z d).
  { intros z Iz Nz NS. destruct (HAS z Iz Nz) as [p [[<-|Ip] Sp]]; [tauto|eauto]. }
  assert (KEY : exists s2 l3, (exists rest, pull f2 l2 = rest /\ match rest with None => s2 = f2 /\ l3 = l2 | Some (a, l') => s2 = f2 ++ a /\ l3 = l' end)
     /\ exists e, (e = x \/ e = y) /\ mate s2 e d).
  { destruct (proj1 LO1 f2 (or_introl eq_refl)) as [p [q [EF [NPQ [P' Q']]]]].
    assert (SYM : forall r s t, same r s t -> same r t s) by (intros r s t [->| ->]; red; auto).
    assert (GO : forall s l, (exists rest, pull f2 l2 = rest /\ match rest with None => s = f2 /\ l = l2 | Some (a, l') => s = f2 ++ a /\ l = l' end)
       -> (exists e, (e = x \/ e = y) /\ mate s e d) -> exists s2 l3, (exists rest, pull f2 l2 = rest /\ match rest with None => s2 = f2 /\ l3 = l2 | Some (a, l') => s2 = f2 ++ a /\ l3 = l' end)
     /\ exists e, (e = x \/ e = y) /\ mate s2 e d) by (intros s l H1 H2; exists s, l; auto).
    assert (W : (exists e, (e = x \/ e = y) /\ same f2 e d) \/ same f2 m d \/ same f2 x y).
    { assert (NM : forall z, z = x \/ z = y -> ~ same f2 z m) by (intros z Z S; apply (REST f2 z); simpl; auto).
      destruct (VV p P') as [->|Ip], (VV q Q') as [->|Iq]; [congruence| | |].
      - simpl in Iq. destruct Iq as [<-|[<-|[<-|[]]]]; [left; exists x|right; left|left; exists y]; rewrite EF; unfold same; auto.
      - simpl in Ip. destruct Ip as [<-|[<-|[<-|[]]]]; [left; exists x|right; left|left; exists y]; rewrite EF; unfold same; auto.
      - right; right. simpl in Ip, Iq.
        destruct Ip as [<-|[<-|[<-|[]]]], Iq as [<-|[<-|[<-|[]]]]; try congruence;
          try (exfalso; eapply (NM x); [auto | rewrite EF; unfold same; auto; fail]);
          try (exfalso; eapply (NM y); [auto | rewrite EF; unfold same; auto; fail]); rewrite EF; unfold same; auto. }
    destruct W as [[e [He Se]]|[Sm|Sxy]].
    - assert (MM : forall r, mate (f2 ++ r) e d) by (intros r; destruct Se as [->| ->]; constructor).
      destruct (pull f2 l2) as [[a0 l']|] eqn:PU.
      + apply (GO (f2 ++ a0) l'); [exists (Some (a0, l')); auto|]. exists e. auto.
      + apply (GO f2 l2); [exists None; auto|]. exists e. split; auto. rewrite <- (app_nil_r f2). auto.
    - destruct (HAS2 x X) as [p0 [Ip0 Sp0]]; auto.
      { intros S. destruct Sm as [EE|EE], S as [EE'|EE']; rewrite EE in EE'; inversion EE'; congruence. }
      destruct (pull f2 l2) as [[a0 l']|] eqn:PU.
      2: { exfalso. apply (pull_none _ _ PU p0 Ip0 d); [destruct Sp0 as [->| ->]; simpl; auto|destruct Sm as [->| ->]; simpl; auto]. }
      apply (GO (f2 ++ a0) l'); [exists (Some (a0, l')); auto|].
      destruct (pull_some _ _ _ _ PU) as [[i [Ia If]] [u2 [v2 [EL [_ _]]]]].
      assert (Il : In a0 l2) by (rewrite EL; apply in_or_app; simpl; auto).
      destruct (proj1 LO1 a0 (or_intror Il)) as [r [s [EA [NRS [R S]]]]].
      assert (NO1 : forall z, z = x \/ z = y -> ~ same a0 z m) by (intros z Z W; apply (REST a0 z); simpl; auto).
      assert (NO2 : ~ same a0 m d) by (intros W; apply (same_once V f2 l2 a0 m d); auto).
      assert (Ii : i = m \/ i = d) by (destruct Sm as [EE|EE]; rewrite EE in If; simpl in If; intuition congruence).
      assert (J : exists j, same a0 i j /\ In j V /\ i <> j).
      { rewrite EA in Ia. simpl in Ia. destruct Ia as [<-|[<-|[]]]; [exists s|exists r]; rewrite EA; unfold same; auto. }
      destruct J as [j [Sj [Ij Nj]]].
      destruct Ii as [->| ->].
      + exfalso. destruct (VV j Ij) as [->|[<-|[<-|[<-|[]]]]]; [exact (NO2 Sj) | apply (NO1 x); auto | congruence | apply (NO1 y); auto].
      + destruct (VV j Ij) as [->|[<-|[<-|[<-|[]]]]]; [congruence | | exfalso; apply NO2; auto |].
        * exists x. split; auto. destruct Sm as [->| ->], Sj as [->| ->]; repeat constructor.
        * exists y. split; auto. destruct Sm as [->| ->], Sj as [->| ->]; repeat constructor.
    - destruct (HAS2 x X) as [p0 [Ip0 Sp0]]; auto.
      { intros S. destruct Sxy as [EE|EE], S as [EE'|EE']; rewrite EE in EE'; inversion EE'; congruence. }
      destruct (pull f2 l2) as [[a0 l']|] eqn:PU.
      2: { exfalso. apply (pull_none _ _ PU p0 Ip0 x); [destruct Sp0 as [->| ->]; simpl; auto|destruct Sxy as [->| ->]; simpl; auto]. }
      apply (GO (f2 ++ a0) l'); [exists (Some (a0, l')); auto|].
      destruct (pull_some _ _ _ _ PU) as [[i [Ia If]] [u2 [v2 [EL [_ _]]]]].
      assert (Il : In a0 l2) by (rewrite EL; apply in_or_app; simpl; auto).
      destruct (proj1 LO1 a0 (or_intror Il)) as [r [s [EA [NRS [R S]]]]].
      assert (NO1 : forall z, z = x \/ z = y -> ~ same a0 z m) by (intros z Z W; apply (REST a0 z); simpl; auto).
      assert (NO2 : ~ same a0 x y) by (intros W; apply (same_once V f2 l2 a0 x y); auto).
      assert (Ii : i = x \/ i = y) by (destruct Sxy as [EE|EE]; rewrite EE in If; simpl in If; intuition congruence).
      assert (J : exists j, same a0 i j /\ In j V /\ i <> j).
      { rewrite EA in Ia. simpl in Ia. destruct Ia as [<-|[<-|[]]]; [exists s|exists r]; rewrite EA; unfold same; auto. }
      destruct J as [j [Sj [Ij Nj]]].
      exists i. split; auto. destruct (VV j Ij) as [->|Jj].
      + destruct Sxy as [->| ->], Sj as [->| ->]; repeat constructor.
      + exfalso. simpl in Jj. destruct Jj as [<-|[<-|[<-|[]]]].
        * destruct Ii as [->| ->]; [congruence|]. apply NO2; auto.
        * apply (NO1 i); auto.
        * destruct Ii as [->| ->]; [apply NO2; auto | congruence]. }
  destruct KEY as [s2 [l3 [[rest [PU RE]] [e [He Me]]]]].
  assert (STEP : serie_ok V s2 /\ left_over V l3 /\ List.length l3 <= List.length l2
     /\ (forall z, In z (List.concat l2) <-> In z (List.concat l3) \/ (In z (List.concat l2) /\ In z s2) )
     /\ (forall z, In z (List.concat (f2 :: l2)) <-> In z s2 \/ In z (List.concat l3))
     /\ (match pull f2 l2 with None => let* r := trios fuel ((first ++ c) ++ f2) (List.concat L) l2 in Ok (f2 :: r)
         | Some (a0, l'') => let* r := trios fuel ((first ++ c) ++ f2 ++ a0) (List.concat L) l'' in Ok ((f2 ++ a0) :: r) end)
        = (let* r := trios fuel ((first ++ c) ++ s2) (List.concat L) l3 in Ok (s2 :: r))).
  { destruct (pull f2 l2) as [[a0 l']|] eqn:PU'; rewrite <- PU in RE; destruct RE as [-> ->].
    - destruct (pull_some _ _ _ _ PU') as [S [u2 [v2 [EL [EL' _]]]]]. split; [eapply serie_of; eauto|].
      split; [apply (left_over_mid V [] f2) in LO1; simpl in LO1; rewrite EL in LO1; rewrite EL'; eapply left_over_mid; eauto|].
      split; [rewrite EL, EL', !app_length; simpl; lia|]. split; [|split; auto].
      + intros z. rewrite EL, EL', !concat_app. simpl. rewrite !in_app_iff. tauto.
      + intros z. rewrite EL, EL'. simpl. rewrite !concat_app. simpl. rewrite !in_app_iff. tauto.
    - split; [destruct (proj1 LO1 f2 (or_introl eq_refl)) as [p [q [-> [? [? ?]]]]]; constructor; auto|].
      split; [apply (left_over_mid V [] f2) in LO1; auto|]. split; auto. split; [tauto|]. split; auto.
      intros z. simpl. rewrite !in_app_iff. tauto. }
  destruct STEP as [OK2 [LO3 [LL [_ [CC ST]]]]]. rewrite ST in Q. clear ST.
  destruct (trios_ok V fuel ((first ++ c) ++ s2) (List.concat L) l3) as [series [Q1 [Q2 _]]]; auto.
  { simpl in LF. lia. }
  { intros z. rewrite E. change (List.concat (first :: u ++ c :: v)) with (first ++ List.concat (u ++ c :: v)).
    assert (CU : In z (List.concat (u ++ v)) <-> In z s2 \/ In z (List.concat l3)) by (rewrite UV; apply CC).
    rewrite concat_app in *. simpl. rewrite !in_app_iff in *. tauto. }
  rewrite Q1 in Q. cbn [bind] in Q. exists ((first ++ c) :: s2 :: series).
  unfold trios_list_to_parallel_axes. cbn [foldM existsb]. rewrite T. cbn [bind app].
  assert (EX : existsb (fun i => memb String.eqb i s2) [x; m; y] = true).
  { apply existsb_exists. exists e. split; [destruct He as [->| ->]; simpl; auto|]. apply memb_iff. apply (mate_in _ _ _ Me). }
  rewrite EX.
  assert (EN : exists front, end_of front [x; m; y] = Some e) by (destruct He as [->| ->]; [exists true|exists false]; auto).
  destruct EN as [front EN].
  destruct (sided_adds V [x; m; y] s2 e d front OK2) as [o2 [O2 Do]]; auto; [discriminate|].
  destruct (sided_ok V [x; m; y] s2 OK2) as [o2' [O2' [NO2 [IO2 [h [k E2']]]]]]; auto; [discriminate|].
  rewrite O2 in O2'. assert (EO : o2' = o2) by congruence. rewrite EO in *. clear EO. rewrite O2. cbn [bind].
  destruct (axes_ok order OR V series Q2 o2 NO2 IO2) as [o [O [NO [IO [h' [k' E']]]]]].
  exists o. split; auto. split; auto. split; auto. split; auto.
  assert (I4 : incl (d :: [x; m; y]) o).
  { intros z Iz. rewrite E'. apply in_or_app. right. apply in_or_app. left. destruct Iz as [<-|Iz]; auto.
    rewrite E2'. apply in_or_app. right. apply in_or_app. auto. }
  assert (N4 : NoDup (d :: [x; m; y])) by (constructor; auto).
  pose proof (NoDup_incl_length N4 I4). simpl in *. lia.
Qed.

Lemma few V L : NoDup V -> 2 <= List.length V <= 4 -> Permutation L (pairs V) ->
  exists series o, get_attribute_trios L = Ok series /\ trios_list_to_parallel_axes order series = Ok o /\ Permutation o V.
Proof.
  intros ND LE P. pose proof (pairs_full V L ND P) as F.
  destruct (Nat.eq_dec (List.length V) 4) as [E4|E4].
  { destruct (four V L F ND E4) as [series [o [A [B [C [D G]]]]]]. exists series, o. split; auto. split; auto.
    apply (full_length V L); auto. lia. }
  destruct (Nat.eq_dec (List.length V) 3) as [E3|E3].
  { destruct (three V L F ND ltac:(lia)) as [series [o [A [B [C [D G]]]]]]. exists series, o. split; auto. split; auto.
    apply (full_length V L); auto. lia. }
  destruct L as [|p L].
  { destruct V as [|a [|b V]]; simpl in LE; try lia. apply Permutation_length in P. simpl in P. discriminate. }
  destruct (proj1 (proj1 F) p (or_introl eq_refl)) as [a [b [-> _]]].
  destruct (axes_first order OR V _ a b L (proj1 F) eq_refl) as [series [o [A [B [C [D G]]]]]].
  exists series, o. split; auto. split; auto. apply (full_length V ([a; b] :: L)); auto.
  destruct G as [g [h [-> | ->]]]; rewrite !app_length; simpl; lia.
Qed.
End Order.

(** The axes of a parallel plot (C59). *)
From Coq Require Import Bool Arith QArith String Lia Permutation Sorted.
From Verif Require Import Base BaseProofs AxesModel AxesSpec AxesProofs AxesMain AxesFour AxesStar.
From Coq Require Import List.
Import ListNotations.
Open Scope nat_scope.

(** What the axes are made from. *)
Lemma filter_free values attrs x : In x (filter (free values) attrs) <-> In x attrs /\ ~ fixed (values x).
Proof.
  rewrite filter_In. unfold free. rewrite negb_true_iff, <- not_true_iff_false, constant_iff. tauto.
Qed.
Lemma pairs_nil l : pairs l = [] <-> List.length l <= 1.
Proof.
  destruct l as [|a [|b r]]; simpl; split; intros H; auto; try lia; discriminate.
Qed.
Lemma rev_nil {A} (l : list A) : rev l = [] -> l = [].
Proof. intros H. rewrite <- (rev_involutive l), H. auto. Qed.

Lemma correlations_cases values r2 order attrs : lists_sets order -> NoDup attrs -> 2 <= List.length attrs ->
  (List.length (filter (free values) attrs) <= 1 /\ get_correlations values r2 order attrs = Ok (pairs attrs, []))
  \/ (2 <= List.length (filter (free values) attrs)
      /\ exists L C, get_correlations values r2 order attrs = Ok (map snd L, C)
         /\ Permutation L (map (score values r2) (pairs (filter (free values) attrs)))
         /\ (forall x r, L = x :: r -> forall y, In y L -> (fst y <= fst x)%Q)
         /\ NoDup C /\ forall x, In x C <-> In x attrs /\ fixed (values x)).
Proof.
  intros OR ND LE. destruct (associations_spec values r2 attrs ND) as [A1 A2]. unfold get_correlations. rewrite A1.
  destruct (le_lt_dec (List.length (filter (free values) attrs)) 1) as [L|L].
  - left. split; auto. apply pairs_nil in L. rewrite L. cbn [map].
    pose proof (unreal_order attrs) as U.
    destruct (rev (sorted (unreal attrs 1))) as [|s l] eqn:E.
    + exfalso. simpl in U. symmetry in U. apply pairs_nil in U. lia.
    + change (map snd (s :: l)) with (snd s :: map snd l) in U. cbv iota beta. rewrite <- U. reflexivity.
  - right. split; [lia|].
    exists (rev (sorted (map (score values r2) (pairs (filter (free values) attrs))))), (order (uniq (snd (associations values r2 attrs)))).
    split; [|split; [|split; [|split]]].
    + destruct (map (score values r2) (pairs (filter (free values) attrs))) as [|s l] eqn:E; auto.
      exfalso. apply map_eq_nil in E. apply pairs_nil in E. lia.
    + rewrite <- Permutation_rev. apply sorted_perm.
    + intros x r E y I. eapply sorted_last; [exact E|]. apply in_rev in I. eapply Permutation_in; [apply sorted_perm | exact I].
    + eapply Permutation_NoDup; [symmetry; apply OR, uniq_nodup | apply uniq_nodup].
    + intros x. rewrite <- A2. rewrite <- (uniq_in x (snd (associations values r2 attrs))).
      split; apply Permutation_in; [|symmetry]; apply OR, uniq_nodup.
Qed.

Lemma score_snd values r2 l : map snd (map (score values r2) (pairs l)) = pairs l.
Proof.
  rewrite map_map. rewrite <- (map_id (pairs l)) at 2. apply map_ext_in. intros p I.
  destruct (pairs_in _ _ I) as [a [b [-> _]]]. auto.
Qed.

(** Associations of the varying attributes are ranked by score, then by names in the order of texts:
    the first ones are the last by this order. *)
Inductive names_le : list string -> list string -> Prop :=
| le_nil m : names_le [] m
| le_lt s t l m : String.compare s t = Lt -> names_le (s :: l) (t :: m)
| le_eq s l m : names_le l m -> names_le (s :: l) (s :: m).
Definition ranked (x y : Q * list string) : Prop :=
  (fst x < fst y)%Q \/ ((fst x == fst y)%Q /\ names_le (snd x) (snd y)).

Lemma leb_names l : forall m, (leb_strings l m = true -> names_le l m) /\ (leb_strings l m = false -> names_le m l).
Proof.
  induction l as [|s l IH]; intros [|t m]; cbn [leb_strings]; try solve [split; intros; try discriminate; apply le_nil].
  destruct (String.eqb_spec s t) as [->|N].
  - destruct (IH m). split; intros; apply le_eq; auto.
  - unfold String.leb. rewrite String.compare_antisym. destruct (String.compare t s) eqn:E; cbn [CompOpp]; split; intros; try discriminate.
    + apply String.compare_eq_iff in E. congruence.
    + apply le_lt. auto.
    + constructor. rewrite String.compare_antisym, E. reflexivity.
Qed.
Lemma leb_ranked x y : (leb_scored x y = true -> ranked x y) /\ (leb_scored x y = false -> ranked y x).
Proof.
  unfold leb_scored, ranked. destruct (Qeq_bool (fst x) (fst y)) eqn:E.
  - apply Qeq_bool_eq in E. destruct (leb_names (snd x) (snd y)). split; intros; right; split; auto. symmetry. auto.
  - split; intros H.
    + left. apply Qle_bool_iff in H. apply Qle_lteq in H. destruct H as [|H]; auto. apply Qeq_bool_iff in H. congruence.
    + left. apply Qnot_le_lt. intros K. apply Qle_bool_iff in K. congruence.
Qed.
Lemma sorted_ranked l : Sorted ranked (sorted l).
Proof.
  unfold sorted. induction l as [|x l IH]; cbn [fold_right]; [constructor|]. revert IH. generalize (fold_right insert [] l). clear l.
  intros l S. induction S as [|y l S IH H]; cbn [insert]; [repeat constructor|].
  destruct (leb_scored x y) eqn:E; [constructor; [constructor; auto|]; constructor; apply (proj1 (leb_ranked x y)); auto|].
  constructor; auto. apply (proj2 (leb_ranked x y)) in E. destruct l as [|z l]; cbn [insert]; [constructor; auto|].
  destruct (leb_scored x z); constructor; auto. inversion H; auto.
Qed.

Theorem C59_ranked : forall values r2 order attrs, NoDup attrs ->
  forall u v, In u attrs -> In v attrs -> u <> v -> ~ fixed (values u) -> ~ fixed (values v) ->
  exists L C, get_correlations values r2 order attrs = Ok (map snd (rev L), C) /\ Sorted ranked L /\
    NoDup (map snd L) /\
    (forall p, In p L -> exists a b, snd p = [a; b] /\ fst p = r2 (values a) (values b)) /\
    (forall a b, In [a; b] (map snd L) \/ In [b; a] (map snd L) <->
       In a attrs /\ In b attrs /\ a <> b /\ ~ fixed (values a) /\ ~ fixed (values b)).
Proof.
  intros values r2 order attrs ND u v Iu Iv N Fu Fv.
  destruct (associations_spec values r2 attrs ND) as [A1 _]. unfold get_correlations. rewrite A1.
  set (V := filter (free values) attrs). assert (NV : NoDup V) by (apply NoDup_filter; auto).
  assert (L2 : 2 <= List.length V).
  { assert (ND2 : NoDup [u; v]) by (repeat constructor; simpl; intuition congruence).
    apply (NoDup_incl_length ND2). intros z [<-|[<-|[]]]; apply filter_free; auto. }
  exists (sorted (map (score values r2) (pairs V))), (order (uniq (snd (associations values r2 attrs)))).
  assert (P : Permutation (map snd (sorted (map (score values r2) (pairs V)))) (pairs V)).
  { etransitivity; [apply Permutation_map, sorted_perm|]. rewrite score_snd. reflexivity. }
  split; [|split; [apply sorted_ranked|split; [|split]]].
  - destruct (map (score values r2) (pairs V)) as [|s l] eqn:E; auto. exfalso. apply map_eq_nil in E. apply pairs_nil in E. lia.
  - eapply Permutation_NoDup; [symmetry; exact P|]. apply pairs_nodup. auto.
  - intros p I. eapply Permutation_in in I; [|apply sorted_perm]. apply in_map_iff in I as (q & <- & I).
    destruct (pairs_in _ _ I) as [a [b [-> _]]]. exists a, b. auto.
  - intros a b. assert (M : forall x, In x (map snd (sorted (map (score values r2) (pairs V)))) <-> In x (pairs V))
      by (intros x; split; apply Permutation_in; [|symmetry]; exact P).
    rewrite !M. assert (B : In [a; b] (pairs V) \/ In [b; a] (pairs V) <-> In a V /\ In b V /\ a <> b).
    { split; [|intros (Ia & Ib & D); apply pairs_has; auto].
      intros [I|I]; destruct (pairs_in _ _ I) as [x [y [E [Ix Iy]]]]; injection E as -> ->;
        destruct (pairs_ne V _ _ NV I); repeat split; auto. }
    rewrite B. unfold V. rewrite !filter_free. tauto.
Qed.

(** Each axis is one of the attributes, and there once; the attributes that do not vary
    are there when two others do. *)
Theorem C59_once : forall values r2 order, lists_sets order ->
  forall attrs, NoDup attrs -> 2 <= List.length attrs ->
  exists axes, parallel_plot_attr values r2 order attrs = Ok axes
    /\ NoDup axes /\ incl axes attrs /\ min 3 (List.length attrs) <= List.length axes
    /\ forall a b c, In a attrs -> In b attrs -> a <> b -> ~ fixed (values a) -> ~ fixed (values b) ->
         In c attrs -> fixed (values c) -> In c axes.
Proof.
  intros values r2 order OR attrs ND LE. unfold parallel_plot_attr.
  assert (KEY : forall V L, NoDup V -> 2 <= List.length V -> Permutation L (pairs V) ->
     exists series o, get_attribute_trios L = Ok series /\ trios_list_to_parallel_axes order series = Ok o
       /\ NoDup o /\ incl o V /\ min 3 (List.length V) <= List.length o
       /\ (List.length V <= 2 -> Permutation o V)).
  { intros V L NV LV P. pose proof (pairs_full V L NV P) as F.
    destruct (le_lt_dec 3 (List.length V)) as [H|H].
    - destruct (three order OR V L F NV H) as [series [o [A [B [C [D E]]]]]]. exists series, o.
      split; auto. split; auto. split; auto. split; auto. split; [lia|]. intros; lia.
    - destruct (few order OR V L NV ltac:(lia) P) as [series [o [A [B C]]]]. exists series, o. split; auto. split; auto.
      split; [eapply Permutation_NoDup; [symmetry; exact C | auto]|]. split; [intros x; apply Permutation_in; auto|].
      rewrite (Permutation_length C). split; [lia|]. auto. }
  destruct (correlations_cases values r2 order attrs OR ND LE) as [[L ->]|[L [K [C [-> [P [_ [NC CC]]]]]]]].
  - cbn [bind fst snd]. destruct (KEY attrs (pairs attrs) ND LE (Permutation_refl _)) as [series [o [A [B [E [F [G G2]]]]]]].
    rewrite A. cbn [bind]. rewrite B. cbn [bind app]. exists o. split; auto. split; auto. split; auto. split; auto.
    intros a b c Ia Ib N Fa Fb Ic Fc. exfalso.
    assert (I : incl [a; b] (filter (free values) attrs)) by (intros z [<-|[<-|[]]]; apply filter_free; auto).
    assert (ND2 : NoDup [a; b]) by (repeat constructor; simpl; intuition congruence).
    pose proof (NoDup_incl_length ND2 I). simpl in *. lia.
  - cbn [bind fst snd].
    assert (P' : Permutation (map snd K) (pairs (filter (free values) attrs))).
    { rewrite <- (score_snd values r2). apply Permutation_map. auto. }
    destruct (KEY _ _ (NoDup_filter _ ND) L P') as [series [o [A [B [E [F [G G2]]]]]]].
    rewrite A. cbn [bind]. rewrite B. cbn [bind]. exists (C ++ o). split; auto.
    assert (DIS : forall x, In x C -> ~ In x o).
    { intros x I J. apply F in J. apply filter_free in J. apply CC in I. tauto. }
    split; [apply NoDup_app'; auto|]. split; [|split].
    + intros x I. apply in_app_or in I. destruct I as [I|I]; [apply CC in I; tauto|]. apply F in I. apply filter_free in I. tauto.
    + rewrite app_length.
      destruct (le_lt_dec 3 (List.length (filter (free values) attrs))) as [H|H]; [lia|].
      assert (F2 : Permutation o (filter (free values) attrs)) by (apply G2; lia).
      assert (ALL : incl attrs (C ++ o)).
      { intros x I. apply in_or_app. destruct (constant (values x)) eqn:Q.
        - left. apply CC. split; auto. apply constant_iff; auto.
        - right. eapply Permutation_in; [symmetry; exact F2|]. apply filter_free. split; auto.
          rewrite <- constant_iff. congruence. }
      pose proof (NoDup_incl_length ND ALL) as H2. rewrite app_length in H2. lia.
    + intros a b c _ _ _ _ _ Ic Fc. apply in_or_app. left. apply CC. auto.
Qed.

(** Two attributes with the best score are next to each other. *)
Theorem C59_best : forall values r2 order, lists_sets order -> (forall x y, r2 x y == r2 y x)%Q ->
  forall attrs, NoDup attrs ->
  forall u v, In u attrs -> In v attrs -> u <> v -> ~ fixed (values u) -> ~ fixed (values v) ->
  exists axes a b, parallel_plot_attr values r2 order attrs = Ok axes
    /\ adjacent a b axes /\ a <> b /\ ~ fixed (values a) /\ ~ fixed (values b)
    /\ forall c d, In c attrs -> In d attrs -> c <> d -> ~ fixed (values c) -> ~ fixed (values d) ->
         (r2 (values c) (values d) <= r2 (values a) (values b))%Q.
Proof.
  intros values r2 order OR SY attrs ND u v Iu Iv N Fu Fv.
  assert (I2 : incl [u; v] (filter (free values) attrs)) by (intros z [<-|[<-|[]]]; apply filter_free; auto).
  assert (ND2 : NoDup [u; v]) by (repeat constructor; simpl; intuition congruence).
  assert (LV : 2 <= List.length (filter (free values) attrs)) by exact (NoDup_incl_length ND2 I2).
  assert (LE : 2 <= List.length attrs).
  { assert (I3 : incl [u; v] attrs) by (intros z [<-|[<-|[]]]; auto). exact (NoDup_incl_length ND2 I3). }
  unfold parallel_plot_attr.
  destruct (correlations_cases values r2 order attrs OR ND LE) as [[L _]|[L [K [C [-> [P [TOP [NC CC]]]]]]]]; [lia|].
  cbn [bind fst snd].
  assert (P' : Permutation (map snd K) (pairs (filter (free values) attrs))).
  { rewrite <- (score_snd values r2). apply Permutation_map. auto. }
  destruct (pairs_full _ _ (NoDup_filter _ ND) P') as [LO F].
  destruct K as [|k K].
  { exfalso. apply Permutation_nil in P'. apply pairs_nil in P'. lia. }
  assert (Ik : In k (map (score values r2) (pairs (filter (free values) attrs)))) by (eapply Permutation_in; [exact P | simpl; auto]).
  apply in_map_iff in Ik. destruct Ik as [p [Ep Ip]].
  destruct (pairs_in _ _ Ip) as [a [b [-> [Ia Ib]]]]. simpl in Ep.
  destruct (pairs_ne _ _ _ (NoDup_filter _ ND) Ip) as [NE _].
  destruct (axes_first order OR _ (map snd (k :: K)) a b (map snd K) LO) as [series [o [A [B [C1 [C2 C3]]]]]].
  { rewrite <- Ep. reflexivity. }
  rewrite A. cbn [bind]. rewrite B. cbn [bind]. exists (C ++ o), a, b. split; auto.
  apply filter_free in Ia, Ib.
  split; [rewrite <- (app_nil_r o); apply adjacent_app; auto|]. split; auto. split; [tauto|]. split; [tauto|].
  intros c d Ic Id Ncd Fc Fd.
  destruct (pairs_has (filter (free values) attrs) c d) as [Q|Q]; auto; try (apply filter_free; auto).
  - assert (J : In (score values r2 [c; d]) (k :: K)) by (eapply Permutation_in; [symmetry; exact P | apply in_map; auto]).
    specialize (TOP _ _ eq_refl _ J). rewrite <- Ep in TOP. exact TOP.
  - assert (J : In (score values r2 [d; c]) (k :: K)) by (eapply Permutation_in; [symmetry; exact P | apply in_map; auto]).
    specialize (TOP _ _ eq_refl _ J). rewrite <- Ep in TOP. rewrite (SY (values c) (values d)). exact TOP.
Qed.

(** No attribute is lost when two to four vary, or when there are four at most. *)
Theorem C59_four : forall values r2 order, lists_sets order ->
  forall attrs, NoDup attrs -> 2 <= List.length attrs ->
  List.length attrs <= 4 \/
  (exists V, NoDup V /\ (forall x, In x V <-> In x attrs /\ ~ fixed (values x)) /\ 2 <= List.length V <= 4) ->
  exists axes, parallel_plot_attr values r2 order attrs = Ok axes /\ Permutation axes attrs.
Proof.
  intros values r2 order OR attrs ND LE H. unfold parallel_plot_attr.
  destruct (correlations_cases values r2 order attrs OR ND LE) as [[L ->]|[L [K [C [-> [P [_ [NC CC]]]]]]]].
  - assert (L4 : List.length attrs <= 4).
    { destruct H as [H|[V [NV [IV LV]]]]; auto. exfalso.
      assert (I : incl V (filter (free values) attrs)) by (intros x X; apply filter_free; apply IV; auto).
      pose proof (NoDup_incl_length NV I). lia. }
    cbn [bind fst snd]. destruct (few order OR attrs (pairs attrs) ND ltac:(lia) (Permutation_refl _)) as [series [o [A [B P]]]].
    rewrite A. cbn [bind]. rewrite B. exists o. auto.
  - assert (L4 : List.length (filter (free values) attrs) <= 4).
    { destruct H as [H|[V [NV [IV LV]]]].
      - assert (I : incl (filter (free values) attrs) attrs) by (intros x X; apply filter_free in X; tauto).
        pose proof (NoDup_incl_length (NoDup_filter (free values) ND) I). lia.
      - assert (I : incl (filter (free values) attrs) V) by (intros x X; apply filter_free in X; apply IV; auto).
        pose proof (NoDup_incl_length (NoDup_filter (free values) ND) I). lia. }
    cbn [bind fst snd].
    assert (P' : Permutation (map snd K) (pairs (filter (free values) attrs))).
    { rewrite <- (score_snd values r2). apply Permutation_map. auto. }
    destruct (few order OR (filter (free values) attrs) (map snd K) (NoDup_filter _ ND) (conj L L4) P') as [series [o [A [B Q]]]].
    rewrite A. cbn [bind]. rewrite B. cbn [bind]. exists (C ++ o). split; auto.
    assert (QI : forall x, In x o <-> In x attrs /\ ~ fixed (values x)).
    { intros x. rewrite <- filter_free. split; apply Permutation_in; [|symmetry]; auto. }
    apply NoDup_Permutation; auto.
    + apply NoDup_app'; auto; [eapply Permutation_NoDup; [symmetry; exact Q | apply NoDup_filter; auto]|].
      intros x I J. apply QI in J. apply CC in I. tauto.
    + intros x. rewrite in_app_iff, CC, QI. destruct (constant (values x)) eqn:E.
      * apply constant_iff in E. tauto.
      * assert (~ fixed (values x)) by (rewrite <- constant_iff; congruence). tauto.
Qed.

(** When at most one attribute varies, the first three are shown, with the last one
    when there is an even number of them; the others are lost. *)
Theorem C59_constant : forall values r2 order, lists_sets order ->
  forall a0 a1 a2 w, NoDup (a0 :: a1 :: a2 :: w) ->
  (forall a b, In a (a0 :: a1 :: a2 :: w) -> In b (a0 :: a1 :: a2 :: w) ->
     ~ fixed (values a) -> ~ fixed (values b) -> a = b) ->
  exists axes, parallel_plot_attr values r2 order (a0 :: a1 :: a2 :: w) = Ok axes
    /\ (Nat.even (List.length w) = true -> Permutation axes [a0; a1; a2])
    /\ (Nat.even (List.length w) = false -> exists h u, w = h ++ [u] /\ Permutation axes [a0; a1; a2; u]).
Proof.
  intros values r2 order OR a0 a1 a2 w ND U. unfold parallel_plot_attr.
  set (attrs := a0 :: a1 :: a2 :: w) in *.
  destruct (correlations_cases values r2 order attrs OR ND) as [[L ->]|[L _]]; [unfold attrs; simpl; lia| |].
  - cbn [bind fst snd]. destruct (star_all order OR a0 a1 a2 w ND) as [series [o [A [B [C D]]]]].
    unfold attrs. rewrite A. cbn [bind]. rewrite B. exists o. auto.
  - exfalso. pose proof (NoDup_filter (free values) ND) as NF.
    assert (H : forall x, In x (filter (free values) attrs) -> In x attrs /\ ~ fixed (values x)) by (intros x X; apply filter_free; auto).
    destruct (filter (free values) attrs) as [|u [|v r]]; simpl in L; try lia.
    destruct (H u) as [Iu Fu]; [simpl; auto|]. destruct (H v) as [Iv Fv]; [simpl; auto|].
    assert (E : u = v) by (apply U; auto). subst. inversion NF as [|? ? X _]; subst. apply X. simpl; auto.
Qed.

(** Five attributes that vary, two of them lost. *)
Definition rows8 (name : string) : list Q :=
  if String.eqb name "a" then [1; 1; 1; 1; -(1); -(1); -(1); -(1)]%Q
  else if String.eqb name "b" then [2; 2; 0; 0; 0; 0; -(2); -(2)]%Q
  else if String.eqb name "c" then [1; 1; -(1); -(1); 1; 1; -(1); -(1)]%Q
  else if String.eqb name "d" then [4; 0; 2; -(2); 2; -(2); 0; -(4)]%Q
  else [7; -(1); 1; -(7); 1; -(7); 7; -(1)]%Q.
Theorem C59_lost_refuted : forall order, lists_sets order ->
  exists attrs axes, NoDup attrs /\ (forall a, In a attrs -> ~ fixed (rows8 a) /\ List.length (rows8 a) = 8)
    /\ parallel_plot_attr rows8 correlation2 order attrs = Ok axes
    /\ List.length attrs = 5 /\ List.length axes = 3.
Proof.
  intros order OR. set (attrs := ["a"; "b"; "c"; "d"; "e"]%string).
  assert (FR : forall a, In a attrs -> constant (rows8 a) = false /\ List.length (rows8 a) = 8).
  { intros a I. unfold attrs in I. simpl in I. repeat (destruct I as [<-|I]; [vm_compute; auto|]). destruct I. }
  assert (ND : NoDup attrs) by (repeat constructor; simpl; intuition discriminate).
  exists attrs.
  assert (Q : exists axes, parallel_plot_attr rows8 correlation2 order attrs = Ok axes /\ List.length axes = 3).
  { unfold parallel_plot_attr.
    assert (G : get_correlations rows8 correlation2 order attrs
      = Ok ([["b"; "c"]; ["a"; "b"]; ["d"; "e"]; ["b"; "d"]; ["c"; "d"]; ["a"; "d"]; ["c"; "e"]; ["b"; "e"]; ["a"; "e"]; ["a"; "c"]]%string, order [])).
    { vm_compute. reflexivity. }
    assert (O0 : order [] = []).
    { pose proof (OR [] (NoDup_nil _)) as P. apply Permutation_sym, Permutation_nil in P. auto. }
    rewrite G, O0. cbn [bind fst snd].
    assert (T : get_attribute_trios [["b"; "c"]; ["a"; "b"]; ["d"; "e"]; ["b"; "d"]; ["c"; "d"]; ["a"; "d"]; ["c"; "e"]; ["b"; "e"]; ["a"; "e"]; ["a"; "c"]]%string
       = Ok [["b"; "c"; "a"; "b"]; ["d"; "e"; "b"; "d"]]%string) by (vm_compute; reflexivity).
    rewrite T. cbn [bind]. unfold trios_list_to_parallel_axes. cbn [foldM existsb].
    assert (U : uniq (filter (fun z => negb (String.eqb z "b")) ["b"; "c"; "a"; "b"])%string = ["c"; "a"]%string) by reflexivity.
    assert (OP : order ["c"; "a"]%string = ["c"; "a"]%string \/ order ["c"; "a"]%string = ["a"; "c"]%string).
    { apply Permutation_length_2_inv. symmetry. apply OR. repeat constructor; simpl; intuition discriminate. }
    unfold new_attributes_trio.
    change (List.length ["b"; "c"; "a"; "b"]%string <? 3) with false. cbv iota.
    change (index_of Nat.eqb 2 (map (fun a => count a ["b"; "c"; "a"; "b"]%string) ["b"; "c"; "a"; "b"]%string)) with (Some 0).
    cbn [of_option bind nth_error]. rewrite U.
    destruct OP as [-> | ->]; (eexists; split; [vm_compute; reflexivity | reflexivity]). }
  destruct Q as [axes [Q L]]. exists axes. split; auto. split.
  - intros a I. destruct (FR a I) as [A B]. split; auto. rewrite <- constant_iff. congruence.
  - auto.
Qed.

(** One attribute alone has its histogram, none is an error. *)
Theorem C59_plot : forall values r2 order, lists_sets order ->
  (forall a, plot_parallel_plot values r2 order [a] = Ok (Single a))
  /\ plot_parallel_plot values r2 order [] = Err ValueError
  /\ (forall attrs, List.length attrs < 2 -> parallel_plot_attr values r2 order attrs = Err ValueError)
  /\ forall attrs, NoDup attrs -> 2 <= List.length attrs ->
     exists axes, plot_parallel_plot values r2 order attrs = Ok (Parallel axes)
       /\ parallel_plot_attr values r2 order attrs = Ok axes.
Proof.
  intros values r2 order OR. split; [reflexivity|]. split; [reflexivity|]. split.
  { intros [|a [|b l]] L; [reflexivity| |cbn in L; lia]. unfold parallel_plot_attr, get_correlations. cbn [associations].
    destruct (constant (values a)) eqn:C; [reflexivity|]. unfold associate. cbn [fold_left]. rewrite C, String.eqb_refl. reflexivity. }
  intros attrs ND LE.
  destruct (C59_once values r2 order OR attrs ND LE) as [axes [Q _]]. exists axes. split; auto.
  unfold plot_parallel_plot. destruct (Nat.ltb_spec 1 (List.length attrs)); [|lia]. rewrite Q. auto.
Qed.

(** Two pairs with the same score *)
Example ranked_case : get_correlations rows8 (fun _ _ => 1%Q) (fun l => l) ["b"; "a"; "c"]%string
  = Ok ([["b"; "c"]; ["b"; "a"]; ["a"; "c"]]%string, []).
Proof. vm_compute. reflexivity. Qed.
Print Assumptions C59_ranked.
Print Assumptions C59_once.
Print Assumptions C59_best.
Print Assumptions C59_four.
Print Assumptions C59_constant.
Print Assumptions C59_lost_refuted.
Print Assumptions C59_plot.

(** Four attributes that vary; then two that vary and one that does not. *)
Example C59_example : parallel_plot_attr rows8 correlation2 (fun l => l) ["a"; "b"; "c"; "d"]%string = Ok ["d"; "c"; "b"; "a"]%string
  /\ parallel_plot_attr (fun a => if String.eqb a "k" then [1; 1]%Q else if String.eqb a "x" then [1; 2]%Q else [3; 5]%Q)
       correlation2 (fun l => l) ["x"; "k"; "y"]%string = Ok ["k"; "x"; "y"]%string.
Proof. split; vm_compute; reflexivity. Qed.

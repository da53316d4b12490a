(** C36: the float index of a value in a list and the interpolation at a float index. *)
From Coq Require Import ZArith QArith Qabs Qround Lqa Lia Bool List.
From Verif Require Import Base InterpModel InterpProofs.
Import ListNotations.
Open Scope Q_scope.

(** Interpolation between numbers *)
Definition at_index (objects : list Q) (istep : Q) : res Q := interpolate_from_istep Qmult Qplus objects istep.

(** the value is between the points [i] and [i + 1] of the list, whichever is larger *)
Definition between (l : list Q) (i : nat) (value p1 p2 : Q) : Prop :=
  nth_error l i = Some p1 /\ nth_error l (S i) = Some p2
  /\ (p1 <= value <= p2 \/ p2 <= value <= p1).

(** ... and in no earlier segment *)
Definition first_between (l : list Q) (i : nat) (value p1 p2 : Q) : Prop :=
  between l i value p1 p2 /\ forall j q1 q2, (j < i)%nat -> ~ between l j value q1 q2.

Definition increasing (l : list Q) : Prop :=
  forall i x y, nth_error l i = Some x -> nth_error l (S i) = Some y -> x < y.

(** ** Index of a value, any list *)

(** The value is looked for in the first segment that contains it.  If the segment
    goes up, interpolating at the index found gives the value back.  If it goes down it
    gives the mirror of the value instead.  If it is flat ZeroDivisionError is raised. *)
Theorem C36_index : forall l value extrapolate i p1 p2, first_between l i value p1 p2 ->
  (p1 == p2 -> istep_from_value_on_list l value extrapolate = Err ZeroDivisionError)
  /\ (~ p1 == p2 -> exists istep w, istep_from_value_on_list l value extrapolate = Ok istep
        /\ inject_Z (Z.of_nat i) <= istep <= inject_Z (Z.of_nat i) + 1
        /\ at_index l istep = Ok w
        /\ (p1 < p2 -> w == value) /\ (p2 < p1 -> w == p1 + p2 - value)).
Proof.
  intros l v e i p1 p2 [(H1 & H2 & Hin) Hf].
  destruct (istep_inside l v e i p1 p2 H1 H2 Hin) as [A B].
  { intros j q1 q2 Hj Hj1 Hj2 C. apply (Hf j q1 q2 Hj). repeat split; auto. }
  split; auto. intros N. pose proof (alpha_bounds v p1 p2 N Hin) as Ha.
  destruct (interpolate_segment l i p1 p2 (alpha_of v p1 p2) _ H1 H2 Ha (Qeq_refl _)) as (w & Hw & Ew).
  eexists. exists w. split; [apply B; auto|]. split; [lra|]. split; [exact Hw|].
  rewrite Ew. split; intros Hp.
  - rewrite alpha_up by auto. field. lra.
  - rewrite alpha_down by auto. field. lra.
Qed.
Print Assumptions C36_index.

(** A value in no segment is refused, or taken for the nearest end (the last one on a
    tie) when extrapolation is allowed.  A list of one point has no segment: the value of
    the point itself is refused. *)
Theorem C36_outside : forall l value, (forall i p1 p2, ~ between l i value p1 p2) ->
  istep_from_value_on_list l value false = Err ValueError
  /\ (l = [] -> istep_from_value_on_list l value true = Err IndexError)
  /\ (forall a b, nth_error l 0 = Some a -> nth_error l (length l - 1) = Some b ->
      exists istep, istep_from_value_on_list l value true = Ok istep
        /\ (Qabs (a - value) < Qabs (b - value) -> istep == 0)
        /\ (Qabs (b - value) <= Qabs (a - value) -> istep == inject_Z (Z.of_nat (length l)) - 1)).
Proof.
  intros l v H.
  assert (H' : forall i p1 p2, nth_error l i = Some p1 -> nth_error l (S i) = Some p2 -> ~ inseg v p1 p2).
  { intros i p1 p2 H1 H2 C. apply (H i p1 p2). repeat split; auto. }
  split; [apply (istep_outside l v false H')|]. split; [intros ->; reflexivity|].
  intros a b Ha Hb. rewrite (istep_outside l v true H'). destruct l as [|x l']; [discriminate|].
  set (l := x :: l') in *. assert (x = a) as -> by (simpl in Ha; congruence).
  assert (last l 0 = b) as -> by (rewrite (last_nth l 0) in Hb by discriminate; congruence).
  assert (E : inject_Z (Z.of_nat (length l) - 1) == inject_Z (Z.of_nat (length l)) - 1).
  { unfold Z.sub. rewrite inject_Z_plus. reflexivity. }
  destruct (Qlt_bool (Qabs (a - v)) (Qabs (b - v))) eqn:B.
  - apply Qlt_bool_iff in B. exists 0. split; auto. split; intros; lra.
  - apply Qlt_bool_false in B. eexists. split; [reflexivity|]. split; intros; lra.
Qed.
Print Assumptions C36_outside.

(** ** Increasing lists *)

Theorem C36_inverse : forall l a b value extrapolate, increasing l -> (2 <= length l)%nat ->
  nth_error l 0 = Some a -> nth_error l (length l - 1) = Some b -> a <= value <= b ->
  exists istep w, istep_from_value_on_list l value extrapolate = Ok istep
    /\ 0 <= istep <= inject_Z (Z.of_nat (length l)) - 1
    /\ at_index l istep = Ok w /\ w == value.
Proof.
  intros l a b v e Hl Hn Ha Hb Hv.
  destruct (incr_segment l v a b Hl Ha Hb Hn Hv) as (i0 & r1 & r2 & K1 & K2 & K3).
  destruct (first_segment l v i0 r1 r2 K1 K2 (or_introl K3)) as (i & p1 & p2 & Hi & H1 & H2 & Hin & Hf).
  pose proof (Hl i p1 p2 H1 H2) as Hp.
  destruct (C36_index l v e i p1 p2) as [_ T].
  { split; [repeat split; auto|]. intros j q1 q2 Hj (Hj1 & Hj2 & C). apply (Hf j q1 q2); auto. }
  destruct T as (s & w & Hs & Hb1 & Hw & Ew & _); [lra|].
  exists s, w. split; auto. split; [|split; auto].
  assert (S i < length l)%nat by (apply nth_error_Some; congruence).
  pose proof (of_nat_le 0 i ltac:(lia)) as B0. change (inject_Z (Z.of_nat 0)) with 0 in B0.
  pose proof (of_nat_le (S i) (length l - 1) ltac:(lia)) as B1. rewrite of_nat_S in B1.
  assert (inject_Z (Z.of_nat (length l - 1)) == inject_Z (Z.of_nat (length l)) - 1) as E.
  { rewrite Nat2Z.inj_sub by lia. unfold Z.sub. rewrite inject_Z_plus. reflexivity. }
  lra.
Qed.
Print Assumptions C36_inverse.

Theorem C36_inverse_left : forall l istep extrapolate, increasing l -> (2 <= length l)%nat ->
  0 <= istep <= inject_Z (Z.of_nat (length l)) - 1 ->
  exists value istep', at_index l istep = Ok value
    /\ istep_from_value_on_list l value extrapolate = Ok istep' /\ istep' == istep.
Proof.
  intros l s e Hl Hn Hs.
  destruct (index_cases l s) as (k & p & Hk & C); try lra.
  destruct C as [C|(p2 & Hk2 & C)].
  - exists p. unfold at_index. rewrite (interpolate_integer _ _ l s k p) by auto.
    destruct k as [|k].
    + destruct (nth_error l 1) as [q|] eqn:Eq; [|apply nth_error_None in Eq; lia].
      pose proof (Hl 0%nat p q Hk Eq) as Hpq.
      destruct (istep_inside l p e 0 p q Hk Eq (or_introl (conj (Qle_refl _) (Qlt_le_weak _ _ Hpq)))) as [_ B].
      { intros; lia. }
      eexists. split; [auto|]. split; [apply B; lra|]. rewrite alpha_up by auto.
      change (inject_Z (Z.of_nat 0)) with 0 in *. rewrite C. field. lra.
    + destruct (nth_error l k) as [q|] eqn:Eq; [|apply nth_error_None in Eq].
      2:{ assert (S k < length l)%nat by (apply nth_error_Some; congruence). lia. }
      pose proof (Hl k q p Eq Hk) as Hpq.
      destruct (istep_inside l p e k q p Eq Hk (or_introl (conj (Qlt_le_weak _ _ Hpq) (Qle_refl _)))) as [_ B].
      { intros j r1 r2 Hj Hj1 Hj2 In. apply (incr_inseg l p j r1 r2 Hl Hj1 Hj2) in In.
        pose proof (incr_le l (S j) k r2 q Hl ltac:(lia) Hj2 Eq). lra. }
      eexists. split; [auto|]. split; [apply B; lra|]. rewrite alpha_up by auto.
      rewrite of_nat_S in C. rewrite C. field. lra.
  - pose proof (Hl k p p2 Hk Hk2) as Hpq.
    set (alpha := s - inject_Z (Z.of_nat k)).
    destruct (interpolate_segment l k p p2 alpha s Hk Hk2) as (w & Hw & Ew).
    { unfold alpha. lra. } { unfold alpha. ring. }
    assert (0 < alpha < 1) as Ha by (unfold alpha; lra).
    assert (p < w) as W1.
    { rewrite Ew. setoid_replace ((1 - alpha) * p + alpha * p2) with (p + alpha * (p2 - p)) by ring.
      assert (0 < alpha * (p2 - p)) by (apply Qmult_lt_0_compat; lra). lra. }
    assert (w < p2) as W2.
    { rewrite Ew. setoid_replace ((1 - alpha) * p + alpha * p2) with (p2 - (1 - alpha) * (p2 - p)) by ring.
      assert (0 < (1 - alpha) * (p2 - p)) by (apply Qmult_lt_0_compat; lra). lra. }
    exists w. destruct (istep_inside l w e k p p2 Hk Hk2 (or_introl (conj (Qlt_le_weak _ _ W1) (Qlt_le_weak _ _ W2))))
      as [_ B].
    { intros j r1 r2 Hj Hj1 Hj2 In. apply (incr_inseg l w j r1 r2 Hl Hj1 Hj2) in In.
      pose proof (incr_le l (S j) k r2 p Hl ltac:(lia) Hj2 Hk). lra. }
    eexists. split; [exact Hw|]. split; [apply B; lra|]. rewrite alpha_up by auto. rewrite Ew.
    unfold alpha. field. lra.
Qed.
Print Assumptions C36_inverse_left.

(** Larger values have larger indices. *)
Theorem C36_monotone : forall l v v' istep istep', increasing l ->
  istep_from_value_on_list l v false = Ok istep -> istep_from_value_on_list l v' false = Ok istep' ->
  (v < v' <-> istep < istep').
Proof.
  assert (M : forall l v v' s s', increasing l ->
    istep_from_value_on_list l v false = Ok s -> istep_from_value_on_list l v' false = Ok s' ->
    (v < v' -> s < s') /\ (v == v' -> s == s')).
  { intros l v v' s s' Hl H H'.
    destruct (incr_istep_inv l v s Hl H) as (i & p1 & p2 & H1 & H2 & Hv & -> & Hf).
    destruct (incr_istep_inv l v' s' Hl H') as (i' & q1 & q2 & G1 & G2 & Gv & -> & Gf).
    pose proof (Hl _ _ _ H1 H2) as Hp. pose proof (Hl _ _ _ G1 G2) as Hq.
    pose proof (div_bounds p1 p2 v Hp Hv) as Hd. pose proof (div_bounds q1 q2 v' Hq Gv) as Gd.
    destruct (Nat.lt_trichotomy i i') as [C|[C|C]].
    - pose proof (of_nat_le (S i) i' ltac:(lia)) as B. rewrite of_nat_S in B. split; intros V.
      + destruct (Qlt_le_dec (inject_Z (Z.of_nat i) + (v - p1) / (p2 - p1))
                            (inject_Z (Z.of_nat i') + (v' - q1) / (q2 - q1))) as [L|L]; auto. exfalso.
        assert ((v - p1) / (p2 - p1) == 1) as E1 by lra.
        assert ((v' - q1) / (q2 - q1) == 0) as E2 by lra.
        assert (inject_Z (Z.of_nat i) + 1 == inject_Z (Z.of_nat i')) as E3 by lra.
        rewrite <- of_nat_S in E3. apply (inject_Z_injective (Z.of_nat (S i)) (Z.of_nat i')) in E3.
        assert (i' = S i) as -> by lia. assert (q1 = p2) as -> by congruence.
        assert (v - p1 == 1 * (p2 - p1)) as V1 by (rewrite <- E1; field; lra).
        assert (v' - p2 == 0 * (q2 - p2)) as V2 by (rewrite <- E2; field; lra). lra.
      + exfalso. apply (Gf i p1 p2 C H1 H2). left. lra.
    - subst i'. assert (q1 = p1) as -> by congruence. assert (q2 = p2) as -> by congruence.
      split; intros V.
      + assert ((v - p1) / (p2 - p1) < (v' - p1) / (p2 - p1)); [|lra].
        unfold Qdiv. apply Qmult_lt_compat_r; [apply Qinv_lt_0_compat|]; lra.
      + rewrite V. reflexivity.
    - pose proof (incr_le l (S i') i q2 p1 Hl ltac:(lia) G2 H1). split; intros V.
      + exfalso. lra.
      + exfalso. apply (Hf i' q1 q2 C G1 G2). left. lra. }
  intros l v v' s s' Hl H H'. split; intros L.
  - apply (M l v v' s s' Hl H H'); auto.
  - destruct (Qlt_le_dec v v') as [C|C]; auto. exfalso. apply Qle_lteq in C. destruct C as [C|C].
    + apply (M l v' v s' s Hl H' H) in C. lra.
    + apply (M l v' v s' s Hl H' H) in C. lra.
Qed.
Print Assumptions C36_monotone.

(** Outside the range of an increasing list *)
Theorem C36_increasing_outside : forall l a b value, increasing l -> nth_error l 0 = Some a ->
  nth_error l (length l - 1) = Some b -> value < a \/ b < value ->
  istep_from_value_on_list l value false = Err ValueError
  /\ exists istep, istep_from_value_on_list l value true = Ok istep
       /\ (value < a -> (2 <= length l)%nat -> istep == 0)
       /\ (b < value -> istep == inject_Z (Z.of_nat (length l)) - 1).
Proof.
  intros l a b v Hl Ha Hb Hv.
  assert (Hab : a <= b) by (apply (incr_le l 0 (length l - 1)); auto; lia).
  destruct (C36_outside l v) as (A & _ & C).
  { intros i p1 p2 (H1 & H2 & Hin). apply (incr_inseg l v i p1 p2 Hl H1 H2) in Hin.
    assert (S i < length l)%nat by (apply nth_error_Some; congruence).
    pose proof (incr_le l 0 i a p1 Hl ltac:(lia) Ha H1).
    pose proof (incr_le l (S i) (length l - 1) p2 b Hl ltac:(lia) H2 Hb). lra. }
  split; auto. destruct (C a b Ha Hb) as (s & Es & S1 & S2). exists s. split; auto. split.
  - intros V L2. apply S1. assert (a < b) by (apply (incr_lt l 0 (length l - 1)); auto; lia).
    rewrite !Qabs_pos by lra. lra.
  - intros V. apply S2. rewrite !Qabs_neg by lra. lra.
Qed.
Print Assumptions C36_increasing_outside.

(** ** Interpolation *)

(** At an integer index it is the object there, between two it is their weighted sum,
    outside [0, n - 1] ValueError is raised; nothing else happens. *)
Theorem C36_interpolate : forall {obj} (scale : Q -> obj -> obj) add objects istep,
  (istep < 0 \/ inject_Z (Z.of_nat (length objects)) - 1 < istep ->
     interpolate_from_istep scale add objects istep = Err ValueError)
  /\ (forall k o, nth_error objects k = Some o -> istep == inject_Z (Z.of_nat k) ->
        interpolate_from_istep scale add objects istep = Ok o)
  /\ (forall k o1 o2, nth_error objects k = Some o1 -> nth_error objects (S k) = Some o2 ->
        inject_Z (Z.of_nat k) < istep < inject_Z (Z.of_nat k) + 1 ->
        exists c1 c2, c1 == inject_Z (Z.of_nat k) + 1 - istep /\ c2 == istep - inject_Z (Z.of_nat k)
          /\ interpolate_from_istep scale add objects istep = Ok (add (scale c1 o1) (scale c2 o2)))
  /\ (0 <= istep <= inject_Z (Z.of_nat (length objects)) - 1 ->
        exists o, interpolate_from_istep scale add objects istep = Ok o).
Proof.
  intros obj scale add l s. split; [apply interpolate_outside|].
  split; [intros k o; apply interpolate_integer|]. split.
  - intros k o1 o2 H1 H2 H3. rewrite (interpolate_between _ _ l s k o1 o2 H1 H2 H3).
    eexists. eexists. split; [|split; [|reflexivity]]; ring.
  - intros Hs. destruct (index_cases l s) as (k & p & Hk & C); try lra. destruct C as [C|(p2 & Hk2 & C)].
    + rewrite (interpolate_integer _ _ l s k p); eauto.
    + rewrite (interpolate_between _ _ l s k p p2); eauto.
Qed.
Print Assumptions C36_interpolate.

(** Interpolated numbers are between their neighbours. *)
Theorem C36_between : forall l istep lo hi w, at_index l istep = Ok w ->
  (forall x, In x l -> lo <= x <= hi) -> lo <= w <= hi.
Proof.
  intros l s lo hi w H Hb.
  destruct (Qlt_le_dec s 0) as [C|C].
  { unfold at_index in H. rewrite interpolate_outside in H by auto. discriminate. }
  destruct (Qlt_le_dec (inject_Z (Z.of_nat (length l)) - 1) s) as [D|D].
  { unfold at_index in H. rewrite interpolate_outside in H by auto. discriminate. }
  destruct (index_cases l s C D) as (k & p & Hk & [E|(p2 & Hk2 & E)]).
  - unfold at_index in H. rewrite (interpolate_integer _ _ l s k p) in H by auto. injection H as <-.
    apply Hb. eapply nth_error_In; eauto.
  - set (alpha := s - inject_Z (Z.of_nat k)).
    destruct (interpolate_segment l k p p2 alpha s Hk Hk2) as (w' & Hw & Ew).
    { unfold alpha. lra. } { unfold alpha. ring. }
    unfold at_index in H. rewrite Hw in H. injection H as ->. rewrite Ew.
    apply nth_error_In in Hk, Hk2. apply Hb in Hk, Hk2.
    assert (0 <= alpha <= 1) as Ha by (unfold alpha; lra).
    assert (0 <= alpha * (p2 - lo)) by (apply Qmult_le_0_compat; lra).
    assert (0 <= (1 - alpha) * (p - lo)) by (apply Qmult_le_0_compat; lra).
    assert (0 <= alpha * (hi - p2)) by (apply Qmult_le_0_compat; lra).
    assert (0 <= (1 - alpha) * (hi - p)) by (apply Qmult_le_0_compat; lra).
    split; lra.
Qed.
Print Assumptions C36_between.

(** ** Examples and counterexamples *)

Example C36_example :
  istep_from_value_on_list [0; 10; 20; 40] 25 false = Ok (2 + (25 - 20) / (40 - 20))
  /\ at_index [0; 10; 20; 40] (9 # 4) = Ok ((1 - ((9 # 4) - 2)) * 20 + ((9 # 4) - 2) * 40)
  /\ istep_from_value_on_list [0; 10] 12 false = Err ValueError
  /\ istep_from_value_on_list [0; 10] 12 true = Ok 1
  /\ at_index [0; 10] (3 # 2) = Err ValueError
  /\ increasing [0; 10; 20; 40].
Proof.
  repeat split; try reflexivity.
  intros i x y Hx Hy. destruct i as [|[|[|[|[|i]]]]]; simpl in *; try discriminate;
    injection Hx as <-; injection Hy as <-; reflexivity.
Qed.

(** On a decreasing list the index found is that of another value; two equal points
    divide by zero; the only point of a list is not found. *)
Theorem C36_decreasing_refuted :
  (exists istep w, istep_from_value_on_list [10; 0] 9 false = Ok istep /\ at_index [10; 0] istep = Ok w /\ w == 1)
  /\ istep_from_value_on_list [1; 1; 2] 1 false = Err ZeroDivisionError
  /\ istep_from_value_on_list [3] 3 false = Err ValueError.
Proof.
  split; [|split; reflexivity].
  exists (0 + (9 - 0) / (10 - 0)). eexists. split; [reflexivity|]. split; [reflexivity|]. reflexivity.
Qed.
Print Assumptions C36_decreasing_refuted.

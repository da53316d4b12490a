(** Proofs about interpolation. *)
From Coq Require Import ZArith QArith Qabs Qround Lqa Lia Bool List.
From Verif Require Import Base InterpModel.
Import ListNotations.
Open Scope Q_scope.
Local Arguments Qabs : simpl never.
Local Arguments Qplus : simpl never.
Local Arguments Qminus : simpl never.
Local Arguments Qmult : simpl never.
Local Arguments Qdiv : simpl never.

Lemma Qlt_bool_iff a b : Qlt_bool a b = true <-> a < b.
Proof.
  unfold Qlt_bool. rewrite negb_true_iff. split.
  - intros H. apply Qnot_le_lt. intros L. apply Qle_bool_iff in L. congruence.
  - intros H. destruct (Qle_bool b a) eqn:E; auto. apply Qle_bool_iff in E. lra.
Qed.

Lemma Qlt_bool_false a b : Qlt_bool a b = false <-> b <= a.
Proof.
  unfold Qlt_bool. rewrite negb_false_iff. apply Qle_bool_iff.
Qed.

Lemma sorted2_le p1 p2 : p1 <= p2 -> sorted2 p1 p2 = (p1, p2).
Proof. intros H. unfold sorted2. apply Qlt_bool_false in H. rewrite H. auto. Qed.

Lemma sorted2_gt p1 p2 : p2 < p1 -> sorted2 p1 p2 = (p2, p1).
Proof. intros H. unfold sorted2. apply Qlt_bool_iff in H. rewrite H. auto. Qed.

Definition inseg (v p1 p2 : Q) : Prop := p1 <= v <= p2 \/ p2 <= v <= p1.

Lemma inseg_sorted v p1 p2 :
  (let (a, b) := sorted2 p1 p2 in Qle_bool a v && Qle_bool v b) = true <-> inseg v p1 p2.
Proof.
  unfold inseg. destruct (Qlt_le_dec p2 p1) as [H|H].
  - rewrite sorted2_gt, andb_true_iff, !Qle_bool_iff by auto. split; [auto|]. intros [C|C]; lra.
  - rewrite sorted2_le, andb_true_iff, !Qle_bool_iff by auto. split; [auto|]. intros [C|C]; lra.
Qed.

Lemma nth_error_pairs (l : list Q) : forall i p1 p2,
  nth_error (combine (removelast l) (tl l)) i = Some (p1, p2)
  <-> nth_error l i = Some p1 /\ nth_error l (S i) = Some p2.
Proof.
  induction l as [|x [|y l] IH]; intros i p1 p2.
  - destruct i; simpl; split; try discriminate; intros [? ?]; discriminate.
  - destruct i as [|[|i]]; simpl; split; try discriminate; intros [? ?]; discriminate.
  - change (combine (removelast (x :: y :: l)) (tl (x :: y :: l)))
      with ((x, y) :: combine (removelast (y :: l)) (tl (y :: l))).
    destruct i as [|i].
    + simpl. split; [intros [= -> ->]; auto|intros [[= ->] [= ->]]; auto].
    + cbn [nth_error]. rewrite IH. reflexivity.
Qed.

Lemma div_bounds a b v : a < b -> a <= v <= b -> 0 <= (v - a) / (b - a) <= 1.
Proof.
  intros H Hv. split.
  - apply Qle_shift_div_l; lra.
  - apply Qle_shift_div_r; lra.
Qed.

(** the index inside a segment *)
Definition alpha_of (v p1 p2 : Q) : Q := let (a, b) := sorted2 p1 p2 in (v - a) / (b - a).

Lemma istep_loop_spec v ps : forall k,
  match istep_loop k ps v with
  | None => forall i p1 p2, nth_error ps i = Some (p1, p2) -> ~ inseg v p1 p2
  | Some r => exists i p1 p2, nth_error ps i = Some (p1, p2) /\ inseg v p1 p2
      /\ (forall j q1 q2, (j < i)%nat -> nth_error ps j = Some (q1, q2) -> ~ inseg v q1 q2)
      /\ (p1 == p2 -> r = Err ZeroDivisionError)
      /\ (~ p1 == p2 -> r = Ok (inject_Z (Z.of_nat (k + i)) + alpha_of v p1 p2))
  end.
Proof.
  induction ps as [|[p1 p2] ps IH]; intros k; simpl.
  - intros [|i] q1 q2; discriminate.
  - pose proof (inseg_sorted v p1 p2) as S.
    destruct (sorted2 p1 p2) as [a b] eqn:Es.
    destruct (Qle_bool a v && Qle_bool v b) eqn:E.
    + exists 0%nat, p1, p2. split; auto. split; [apply S; auto|]. split; [intros; lia|].
      rewrite Nat.add_0_r. unfold alpha_of. rewrite Es.
      apply andb_true_iff in E. rewrite !Qle_bool_iff in E.
      assert (Hab : (p1 == p2 -> a == b) /\ (~ p1 == p2 -> a < b)).
      { unfold sorted2 in Es. destruct (Qlt_bool p2 p1) eqn:L; injection Es as <- <-.
        - apply Qlt_bool_iff in L. split; intros; lra.
        - apply Qlt_bool_false in L. split; intros Hn; [auto|]. apply Qle_lteq in L. destruct L; [auto|].
          contradiction. }
      split; intros Hp.
      * apply Hab in Hp. unfold py_div. assert (Qeq_bool (b - a) 0 = true) as ->; auto.
        apply Qeq_bool_iff. lra.
      * apply Hab in Hp. unfold py_div. assert (Qeq_bool (b - a) 0 = false) as ->.
        { destruct (Qeq_bool (b - a) 0) eqn:Z; auto. apply Qeq_bool_iff in Z. lra. }
        simpl. destruct (div_bounds a b v Hp E) as [B1 B2].
        assert (Qlt_bool ((v - a) / (b - a)) 0 = false) as -> by (apply Qlt_bool_false; auto).
        assert (Qlt_bool 1 ((v - a) / (b - a)) = false) as -> by (apply Qlt_bool_false; auto).
        auto.
    + specialize (IH (Datatypes.S k)).
      assert (N : ~ inseg v p1 p2) by (intros C; apply S in C; congruence).
      destruct (istep_loop (Datatypes.S k) ps v) as [r|].
      * destruct IH as (i & q1 & q2 & H1 & H2 & H3 & H4 & H5).
        exists (Datatypes.S i), q1, q2. split; auto. split; auto. split.
        -- intros [|j] r1 r2 Hj; simpl; [intros [= <- <-]; auto|]. apply H3. lia.
        -- rewrite Nat.add_succ_r. auto.
      * intros [|i] q1 q2; simpl; [intros [= <- <-]; auto|apply IH].
Qed.

Lemma alpha_up v p1 p2 : p1 < p2 -> alpha_of v p1 p2 = (v - p1) / (p2 - p1).
Proof. intros H. unfold alpha_of. rewrite sorted2_le by lra. auto. Qed.

Lemma alpha_down v p1 p2 : p2 < p1 -> alpha_of v p1 p2 = (v - p2) / (p1 - p2).
Proof. intros H. unfold alpha_of. rewrite sorted2_gt by auto. auto. Qed.

Lemma alpha_bounds v p1 p2 : ~ p1 == p2 -> inseg v p1 p2 -> 0 <= alpha_of v p1 p2 <= 1.
Proof.
  intros N S. destruct (Qlt_le_dec p2 p1) as [H|H].
  - rewrite alpha_down by auto. apply div_bounds; auto. destruct S; lra.
  - apply Qle_lteq in H. destruct H as [H|H]; [|contradiction].
    rewrite alpha_up by auto. apply div_bounds; auto. destruct S; lra.
Qed.

Section Interp.
Context {obj : Type}.
Variable scale : Q -> obj -> obj.
Variable add : obj -> obj -> obj.

Lemma interpolate_integer l s k p : nth_error l k = Some p -> s == inject_Z (Z.of_nat k) ->
  interpolate_from_istep scale add l s = Ok p.
Proof.
  intros Hk Hs. unfold interpolate_from_istep.
  assert (Hlen : (k < length l)%nat) by (apply nth_error_Some; congruence).
  assert (0 <= inject_Z (Z.of_nat k)) by (rewrite <- (Zle_Qle 0); lia).
  assert (inject_Z (Z.of_nat k) <= inject_Z (Z.of_nat (length l) - 1)) by (rewrite <- Zle_Qle; lia).
  assert (Qlt_bool s 0 = false) as -> by (apply Qlt_bool_false; lra).
  assert (Qlt_bool (inject_Z (Z.of_nat (length l) - 1)) s = false) as -> by (apply Qlt_bool_false; lra).
  simpl. assert (F : Qfloor s = Z.of_nat k) by (rewrite (Qfloor_comp _ _ Hs); apply Qfloor_Z).
  rewrite F. assert (Qeq_bool (inject_Z (Z.of_nat k)) s = true) as -> by (apply Qeq_bool_iff; lra).
  rewrite Nat2Z.id, Hk. auto.
Qed.

Lemma interpolate_between l s k p1 p2 : nth_error l k = Some p1 -> nth_error l (S k) = Some p2 ->
  inject_Z (Z.of_nat k) < s < inject_Z (Z.of_nat k) + 1 ->
  interpolate_from_istep scale add l s
  = Ok (add (scale (1 - (s - inject_Z (Z.of_nat k))) p1) (scale (s - inject_Z (Z.of_nat k)) p2)).
Proof.
  intros Hk1 Hk2 Hs. unfold interpolate_from_istep.
  assert (Hlen : (S k < length l)%nat) by (apply nth_error_Some; congruence).
  assert (0 <= inject_Z (Z.of_nat k)) by (rewrite <- (Zle_Qle 0); lia).
  assert (inject_Z (Z.of_nat k) + 1 <= inject_Z (Z.of_nat (length l) - 1)).
  { change 1 with (inject_Z 1). rewrite <- inject_Z_plus, <- Zle_Qle. lia. }
  assert (Qlt_bool s 0 = false) as -> by (apply Qlt_bool_false; lra).
  assert (Qlt_bool (inject_Z (Z.of_nat (length l) - 1)) s = false) as -> by (apply Qlt_bool_false; lra).
  simpl. assert (F : Qfloor s = Z.of_nat k).
  { pose proof (Qfloor_le s) as F1. pose proof (Qlt_floor s) as F2.
    assert (inject_Z (Qfloor s) < inject_Z (Z.of_nat k + 1)) as A by (rewrite inject_Z_plus; change (inject_Z 1) with 1; lra).
    assert (inject_Z (Z.of_nat k) < inject_Z (Qfloor s + 1)) as B by lra.
    rewrite <- Zlt_Qlt in A, B. lia. }
  rewrite F. assert (Qeq_bool (inject_Z (Z.of_nat k)) s = false) as ->.
  { destruct (Qeq_bool _ _) eqn:E; auto. apply Qeq_bool_iff in E. lra. }
  rewrite Nat2Z.id, Hk1. simpl. replace (Z.to_nat (Z.of_nat k + 1)) with (S k) by lia. rewrite Hk2. auto.
Qed.

Lemma interpolate_outside l s : s < 0 \/ inject_Z (Z.of_nat (length l)) - 1 < s ->
  interpolate_from_istep scale add l s = Err ValueError.
Proof.
  intros H. unfold interpolate_from_istep.
  assert (inject_Z (Z.of_nat (length l) - 1) == inject_Z (Z.of_nat (length l)) - 1) as E.
  { unfold Z.sub. rewrite inject_Z_plus. reflexivity. }
  destruct H as [H|H].
  - apply Qlt_bool_iff in H. rewrite H. auto.
  - assert (Qlt_bool (inject_Z (Z.of_nat (length l) - 1)) s = true) as -> by (apply Qlt_bool_iff; lra).
    rewrite orb_true_r. auto.
Qed.
End Interp.

(** every index inside the list is an integer or between two of them *)
Lemma index_cases {A} (l : list A) s : 0 <= s -> s <= inject_Z (Z.of_nat (length l)) - 1 ->
  exists k p, nth_error l k = Some p
    /\ (s == inject_Z (Z.of_nat k)
        \/ exists p2, nth_error l (S k) = Some p2
             /\ inject_Z (Z.of_nat k) < s < inject_Z (Z.of_nat k) + 1).
Proof.
  intros H0 H1. pose proof (Qfloor_le s) as F1. pose proof (Qlt_floor s) as F2.
  rewrite inject_Z_plus in F2.
  assert (0 <= Qfloor s)%Z as Hf.
  { assert (inject_Z 0 < inject_Z (Qfloor s + 1)) as B0 by (rewrite inject_Z_plus; change (inject_Z 0) with 0; change (inject_Z 1) with 1 in *; lra).
    rewrite <- Zlt_Qlt in B0. lia. }
  set (k := Z.to_nat (Qfloor s)). assert (Ek : Z.of_nat k = Qfloor s) by (unfold k; lia).
  assert (Qfloor s <= Z.of_nat (length l) - 1)%Z as Hk.
  { rewrite Zle_Qle. unfold Z.sub. rewrite inject_Z_plus. change (inject_Z (Z.opp 1)) with (-(1)). lra. }
  destruct (nth_error l k) as [p|] eqn:Ep; [|apply nth_error_None in Ep; lia].
  exists k, p. split; auto. rewrite Ek. change (inject_Z 1) with 1 in F2.
  destruct (Qeq_dec s (inject_Z (Qfloor s))) as [E|E]; [left; auto|right].
  assert (inject_Z (Qfloor s) < s) by (apply Qle_lteq in F1; destruct F1; auto; exfalso; apply E; lra).
  assert (Qfloor s < Z.of_nat (length l) - 1)%Z.
  { rewrite Zlt_Qlt. unfold Z.sub. rewrite inject_Z_plus. change (inject_Z (Z.opp 1)) with (-(1)). lra. }
  destruct (nth_error l (S k)) as [p2|] eqn:Ep2; [|apply nth_error_None in Ep2; lia].
  exists p2. split; auto.
Qed.

Lemma interpolate_segment (l : list Q) k p1 p2 alpha s : nth_error l k = Some p1 -> nth_error l (S k) = Some p2 ->
  0 <= alpha <= 1 -> s == inject_Z (Z.of_nat k) + alpha ->
  exists w, interpolate_from_istep Qmult Qplus l s = Ok w /\ w == (1 - alpha) * p1 + alpha * p2.
Proof.
  intros H1 H2 Ha Hs.
  destruct (Qeq_dec alpha 0) as [E0|E0].
  { rewrite (interpolate_integer _ _ l s k p1); auto; [|lra]. exists p1. split; auto. rewrite E0. ring. }
  destruct (Qeq_dec alpha 1) as [E1|E1].
  { rewrite (interpolate_integer _ _ l s (S k) p2); auto.
    - exists p2. split; auto. rewrite E1. ring.
    - rewrite Nat2Z.inj_succ. unfold Z.succ. rewrite inject_Z_plus. change (inject_Z 1) with 1. lra. }
  rewrite (interpolate_between _ _ l s k p1 p2); auto; [|lra].
  eexists. split; [reflexivity|].
  assert (s - inject_Z (Z.of_nat k) == alpha) as -> by lra. reflexivity.
Qed.

Lemma last_nth (l : list Q) d : l <> [] -> nth_error l (length l - 1) = Some (last l d).
Proof.
  induction l as [|x [|y l] IH]; intros H; [congruence|auto|].
  change (last (x :: y :: l) d) with (last (y :: l) d). rewrite <- IH by discriminate.
  simpl. rewrite Nat.sub_0_r. auto.
Qed.

Lemma istep_inside l v extrapolate i p1 p2 : nth_error l i = Some p1 -> nth_error l (S i) = Some p2 ->
  inseg v p1 p2 ->
  (forall j q1 q2, (j < i)%nat -> nth_error l j = Some q1 -> nth_error l (S j) = Some q2 -> ~ inseg v q1 q2) ->
  (p1 == p2 -> istep_from_value_on_list l v extrapolate = Err ZeroDivisionError)
  /\ (~ p1 == p2 -> istep_from_value_on_list l v extrapolate = Ok (inject_Z (Z.of_nat i) + alpha_of v p1 p2)).
Proof.
  intros H1 H2 Hin Hfirst. unfold istep_from_value_on_list.
  pose proof (istep_loop_spec v (combine (removelast l) (tl l)) 0) as L.
  destruct (istep_loop 0 _ v) as [r|].
  - destruct L as (j & q1 & q2 & Hj & Hq & Hf & L1 & L2). apply nth_error_pairs in Hj. destruct Hj as [Hj1 Hj2].
    assert (i = j) as <-.
    { destruct (Nat.lt_trichotomy i j) as [C|[C|C]]; auto; exfalso.
      - apply (Hf i p1 p2); auto. apply nth_error_pairs. auto.
      - apply (Hfirst j q1 q2); auto. }
    assert (q1 = p1) as -> by congruence. assert (q2 = p2) as -> by congruence. auto.
  - exfalso. apply (L i p1 p2); auto. apply nth_error_pairs. auto.
Qed.

Lemma istep_outside l v extrapolate :
  (forall i p1 p2, nth_error l i = Some p1 -> nth_error l (S i) = Some p2 -> ~ inseg v p1 p2) ->
  istep_from_value_on_list l v extrapolate
  = if extrapolate then
        match l with
        | [] => Err IndexError
        | first :: _ =>
            if Qlt_bool (Qabs (first - v)) (Qabs (last l 0 - v)) then Ok 0
            else Ok (inject_Z (Z.of_nat (length l) - 1))
        end
    else Err ValueError.
Proof.
  intros H. unfold istep_from_value_on_list.
  pose proof (istep_loop_spec v (combine (removelast l) (tl l)) 0) as L.
  destruct (istep_loop 0 _ v) as [r|]; [|destruct l; reflexivity].
  destruct L as (j & q1 & q2 & Hj & Hq & _). apply nth_error_pairs in Hj. destruct Hj as [Hj1 Hj2].
  exfalso. apply (H j q1 q2); auto.
Qed.

Lemma exists_first (P : nat -> Prop) : (forall n, {P n} + {~ P n}) -> forall n, P n ->
  exists m, P m /\ (m <= n)%nat /\ forall j, (j < m)%nat -> ~ P j.
Proof.
  intros D. assert (H : forall n, (exists m, (m < n)%nat /\ P m /\ forall j, (j < m)%nat -> ~ P j) \/ forall j, (j < n)%nat -> ~ P j).
  { induction n as [|n IH]; [right; intros; lia|]. destruct IH as [(m & Hm & Hp & Hf)|IH].
    - left. exists m. auto.
    - destruct (D n) as [Hp|Hp].
      + left. exists n. auto.
      + right. intros j Hj. destruct (Nat.eq_dec j n) as [->|]; auto. apply IH. lia. }
  intros n Hn. destruct (H (S n)) as [(m & Hm & Hp & Hf)|C]; [exists m; repeat split; auto; lia|].
  exfalso. apply (C n); auto.
Qed.

Lemma inseg_dec v p1 p2 : {inseg v p1 p2} + {~ inseg v p1 p2}.
Proof.
  destruct (let (a, b) := sorted2 p1 p2 in Qle_bool a v && Qle_bool v b) eqn:E.
  - left. apply inseg_sorted. auto.
  - right. intros C. apply inseg_sorted in C. congruence.
Qed.

Lemma first_segment l v i p1 p2 : nth_error l i = Some p1 -> nth_error l (S i) = Some p2 -> inseg v p1 p2 ->
  exists k q1 q2, (k <= i)%nat /\ nth_error l k = Some q1 /\ nth_error l (S k) = Some q2 /\ inseg v q1 q2
   /\ (forall j r1 r2, (j < k)%nat -> nth_error l j = Some r1 -> nth_error l (S j) = Some r2 -> ~ inseg v r1 r2).
Proof.
  intros H1 H2 Hin.
  set (P := fun n => match nth_error l n, nth_error l (S n) with Some a, Some b => inseg v a b | _, _ => False end).
  assert (D : forall n, {P n} + {~ P n}).
  { intros n. unfold P. destruct (nth_error l n), (nth_error l (S n)); auto. apply inseg_dec. }
  destruct (exists_first P D i) as (k & Hk & Hle & Hf).
  { unfold P. rewrite H1, H2. auto. }
  unfold P in Hk. destruct (nth_error l k) as [q1|] eqn:E1; [|destruct Hk].
  destruct (nth_error l (S k)) as [q2|] eqn:E2; [|destruct Hk].
  exists k, q1, q2. repeat split; auto. intros j r1 r2 Hj Hj1 Hj2 C. apply (Hf j Hj). unfold P. rewrite Hj1, Hj2. auto.
Qed.

(** increasing lists *)
Definition incr (l : list Q) : Prop :=
  forall i x y, nth_error l i = Some x -> nth_error l (S i) = Some y -> x < y.

Lemma incr_lt l i j x y : incr l -> (i < j)%nat -> nth_error l i = Some x -> nth_error l j = Some y -> x < y.
Proof.
  intros Hl Hij Hx. revert y. induction Hij as [|j Hij IH]; intros y Hy.
  - apply (Hl i); auto.
  - destruct (nth_error l j) as [z|] eqn:Ez.
    + apply Qlt_trans with z; [apply IH; auto|apply (Hl j); auto].
    + exfalso. apply nth_error_None in Ez. assert (S j < length l)%nat by (apply nth_error_Some; congruence). lia.
Qed.

Lemma incr_le l i j x y : incr l -> (i <= j)%nat -> nth_error l i = Some x -> nth_error l j = Some y -> x <= y.
Proof.
  intros Hl Hij Hx Hy. destruct (Nat.eq_dec i j) as [->|].
  - assert (x = y) as -> by congruence. lra.
  - apply Qlt_le_weak, (incr_lt l i j); auto. lia.
Qed.

Lemma incr_segment l v a b : incr l -> nth_error l 0 = Some a -> nth_error l (length l - 1) = Some b ->
  (2 <= length l)%nat -> a <= v <= b ->
  exists i p1 p2, nth_error l i = Some p1 /\ nth_error l (S i) = Some p2 /\ p1 <= v <= p2.
Proof.
  intros Hl Ha Hb Hn Hv.
  set (P := fun n => match nth_error l (S n) with Some y => v <= y | None => True end).
  assert (D : forall n, {P n} + {~ P n}).
  { intros n. unfold P. destruct (nth_error l (S n)) as [y|]; auto.
    destruct (Qlt_le_dec y v) as [C|C]; [right; lra|left; auto]. }
  destruct (exists_first P D (length l - 2)) as (k & Hk & Hle & Hf).
  { unfold P. replace (S (length l - 2)) with (length l - 1)%nat by lia. rewrite Hb. lra. }
  destruct (nth_error l k) as [p1|] eqn:E1; [|apply nth_error_None in E1; lia].
  unfold P in Hk. destruct (nth_error l (S k)) as [p2|] eqn:E2; [|apply nth_error_None in E2; lia].
  exists k, p1, p2. repeat split; auto.
  destruct k as [|k]; [assert (a = p1) as <- by congruence; lra|].
  specialize (Hf k ltac:(lia)). unfold P in Hf. rewrite E1 in Hf. lra.
Qed.

Lemma incr_inseg l v i p1 p2 : incr l -> nth_error l i = Some p1 -> nth_error l (S i) = Some p2 ->
  inseg v p1 p2 -> p1 <= v <= p2.
Proof. intros Hl H1 H2 [C|C]; auto. pose proof (Hl i p1 p2 H1 H2). lra. Qed.

Lemma incr_istep_inv l v s : incr l -> istep_from_value_on_list l v false = Ok s ->
  exists i p1 p2, nth_error l i = Some p1 /\ nth_error l (S i) = Some p2 /\ p1 <= v <= p2
    /\ s = inject_Z (Z.of_nat i) + (v - p1) / (p2 - p1)
    /\ (forall j r1 r2, (j < i)%nat -> nth_error l j = Some r1 -> nth_error l (S j) = Some r2 -> ~ inseg v r1 r2).
Proof.
  intros Hl H. unfold istep_from_value_on_list in H.
  pose proof (istep_loop_spec v (combine (removelast l) (tl l)) 0) as L.
  destruct (istep_loop 0 _ v) as [r|]; [|discriminate].
  destruct L as (i & p1 & p2 & Hi & Hin & Hf & _ & L). apply nth_error_pairs in Hi. destruct Hi as [H1 H2].
  pose proof (Hl i p1 p2 H1 H2) as Hp.
  exists i, p1, p2. repeat split; auto; try (apply (incr_inseg l v i p1 p2); auto).
  - rewrite L in H by lra. rewrite alpha_up in H by auto. injection H as <-; reflexivity.
  - intros j r1 r2 Hj Hj1 Hj2. apply (Hf j); auto. apply nth_error_pairs. auto.
Qed.

Lemma of_nat_le i j : (i <= j)%nat -> inject_Z (Z.of_nat i) <= inject_Z (Z.of_nat j).
Proof. intros H. rewrite <- Zle_Qle. lia. Qed.

Lemma of_nat_S i : inject_Z (Z.of_nat (S i)) == inject_Z (Z.of_nat i) + 1.
Proof. rewrite Nat2Z.inj_succ. unfold Z.succ. rewrite inject_Z_plus. reflexivity. Qed.

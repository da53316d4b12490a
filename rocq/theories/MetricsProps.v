(** C34: distances and moments. *)
From Coq Require Import QArith Qabs Lqa Lia List.
From Verif Require Import Base MetricsModel MetricsProofs.
Import ListNotations.
Open Scope Q_scope.

(** The vectors are the same, component by component. *)
Definition same (a b : list Q) : Prop := Forall2 Qeq a b.

(** The euclidian distance of the vectors is at most [r], without square root. *)
Definition within (r : Q) (a b : list Q) : Prop := 0 <= r /\ sq_euclidian_distance a b <= r * r.

(** ** Manhattan *)

Theorem C34_manhattan : forall a b c, length a = length b -> length b = length c ->
  0 <= manhattan_distance a b
  /\ (manhattan_distance a b == 0 <-> same a b)
  /\ manhattan_distance a b == manhattan_distance b a
  /\ manhattan_distance a c <= manhattan_distance a b + manhattan_distance b c.
Proof.
  intros a b c Hab Hbc. rewrite !manhattan_l1. split; [apply l1_nonneg|]. split; [apply l1_zero; auto|].
  split; [apply l1_sym|apply l1_triangle; auto].
Qed.
Print Assumptions C34_manhattan.

(** It is the sum of the gaps. *)
Theorem C34_manhattan_value : forall x y a b,
  manhattan_distance [] [] == 0
  /\ manhattan_distance (x :: a) (y :: b) == Qabs (x - y) + manhattan_distance a b.
Proof. intros x y a b. split; [reflexivity|]. rewrite !manhattan_l1. reflexivity. Qed.
Print Assumptions C34_manhattan_value.

Example C34_manhattan_example :
  manhattan_distance [1; 2 # 3; -(5)] [0; 1; -(2)] == 13 # 3
  /\ manhattan_distance [1; 2 # 3; -(5)] [1; 2 # 3; -(5)] == 0.
Proof. split; reflexivity. Qed.

(** Vectors of different lengths are cut to the shortest, without an error. *)
Theorem C34_truncation_refuted :
  (forall a b, let n := Nat.min (length a) (length b) in
     manhattan_distance a b == manhattan_distance (firstn n a) (firstn n b)
     /\ sq_euclidian_distance a b == sq_euclidian_distance (firstn n a) (firstn n b))
  /\ exists a b, length a <> length b /\ manhattan_distance a b == 0 /\ sq_euclidian_distance a b == 0.
Proof.
  split.
  - intros a b n. rewrite !manhattan_l1, !euclidian_sq. split; [apply l1_firstn|apply sq_firstn]; auto.
  - exists [1], [1; 2]. split; [discriminate|]. split; reflexivity.
Qed.
Print Assumptions C34_truncation_refuted.

Example C34_truncation_example : manhattan_distance [1; 2] [4; 5; 100] == manhattan_distance [1; 2] [4; 5].
Proof. reflexivity. Qed.

(** ** Euclid *)

Theorem C34_euclidian : forall a b c, length a = length b -> length b = length c ->
  0 <= sq_euclidian_distance a b
  /\ (sq_euclidian_distance a b == 0 <-> same a b)
  /\ sq_euclidian_distance a b == sq_euclidian_distance b a
  /\ (forall r s, within r a b -> within s b c -> within (r + s) a c).
Proof.
  intros a b c Hab Hbc. unfold within. rewrite !euclidian_sq.
  split; [apply sq_nonneg|]. split; [apply sq_zero; auto|]. split; [apply sq_sym|].
  intros r s [Hr H1] [Hs H2]. rewrite euclidian_sq in *. split; [lra|].
  apply (sq_triangle a b c); auto.
Qed.
Print Assumptions C34_euclidian.

Theorem C34_euclidian_value : forall x y a b,
  sq_euclidian_distance [] [] == 0
  /\ sq_euclidian_distance (x :: a) (y :: b) == (x - y) * (x - y) + sq_euclidian_distance a b.
Proof. intros x y a b. split; [reflexivity|]. rewrite !euclidian_sq. reflexivity. Qed.
Print Assumptions C34_euclidian_value.

Example C34_euclidian_example :
  sq_euclidian_distance [0; 0] [3; 4] == 25 /\ within 5 [0; 0] [3; 4] /\ ~ within (499 # 100) [0; 0] [3; 4].
Proof.
  split; [reflexivity|]. unfold within.
  assert (sq_euclidian_distance [0; 0] [3; 4] == 25) as E by reflexivity. rewrite E. split; lra.
Qed.

(** ** Infinite norm *)

Theorem C34_inf_norm : forall vector,
  (vector = [] -> inf_norm vector = Err ValueError)
  /\ (vector <> [] -> exists m, inf_norm vector = Ok m
        /\ (forall x, In x vector -> Qabs x <= m) /\ exists x, In x vector /\ m = Qabs x).
Proof.
  intros [|x l]; split; intros H; try congruence; [reflexivity|]. simpl.
  destruct (max_fold l (Qabs x)) as (A & B & C). eexists. split; [reflexivity|]. split.
  - intros y [<-|Hy]; auto.
  - destruct C as [C|(y & Hy & C)]; [exists x|exists y]; auto.
Qed.
Print Assumptions C34_inf_norm.

Example C34_inf_norm_example : inf_norm [1; -(7); 3] = Ok 7.
Proof. reflexivity. Qed.

(** ** Mean *)

Theorem C34_mean : forall vector,
  (vector = [] -> mean vector = Err ZeroDivisionError)
  /\ (vector <> [] -> exists m, mean vector = Ok m
        /\ m * inject_Z (Z.of_nat (length vector)) == fold_right Qplus 0 vector
        /\ (forall lo hi, (forall x, In x vector -> lo <= x <= hi) -> lo <= m <= hi)
        /\ (forall t, exists m', mean (map (fun x => x + t) vector) = Ok m' /\ m' == m + t)).
Proof.
  intros vector. split; [intros ->; reflexivity|]. intros Hne.
  pose proof (len_pos vector Hne) as Hp. rewrite (mean_ok vector Hne). eexists. split; [reflexivity|].
  assert (py_sum vector / len vector * len vector == total vector) as E.
  { rewrite py_sum_total. field. lra. }
  split; [exact E|]. split.
  - intros lo hi H. assert (F : Forall (fun x => lo <= x <= hi) vector) by (apply Forall_forall; auto).
    apply total_bounds in F. rewrite <- E in F. destruct F as [F1 F2].
    split; [apply Qmult_le_r in F1 | apply Qmult_le_r in F2]; auto.
  - intros t. apply mean_shift. apply mean_ok. auto.
Qed.
Print Assumptions C34_mean.

Example C34_mean_example : exists m, mean [1; 2; 6] = Ok m /\ m == 3.
Proof. eexists. split; reflexivity. Qed.

(** ** Covariance *)

Theorem C34_covariance_errors : forall x y,
  (length x <> length y -> covariance x y = Err ValueError)
  /\ (length x = length y -> x = [] -> covariance x y = Err ZeroDivisionError)
  /\ (length x = length y -> x <> [] -> exists c, covariance x y = Ok c).
Proof.
  intros x y. repeat split.
  - intros H. unfold covariance. apply Nat.eqb_neq in H. rewrite H. reflexivity.
  - intros H ->. destruct y; [reflexivity|discriminate].
  - intros H Hne. destruct (covariance_ok x y Hne H) as (? & ? & c & _ & _ & E & _). eauto.
Qed.
Print Assumptions C34_covariance_errors.

(** It is the mean of the products minus the product of the means. *)
Theorem C34_covariance_value : forall x y c mx my, covariance x y = Ok c -> mean x = Ok mx -> mean y = Ok my ->
  exists mxy, mean (map (fun ab => fst ab * snd ab) (combine x y)) = Ok mxy /\ c == mxy - mx * my.
Proof.
  intros x y c mx my H Hx Hy.
  assert (x <> []) as Hne by (intros ->; discriminate).
  assert (length x = length y) as Hl.
  { destruct (Nat.eq_dec (length x) (length y)) as [E|E]; auto.
    apply (proj1 (C34_covariance_errors x y)) in E. congruence. }
  destruct (covariance_expand x y Hne Hl) as (mx' & my' & mxy & c' & Ex & Ey & Exy & Ec & Ed).
  rewrite Ex in Hx. rewrite Ey in Hy. rewrite Ec in H. injection Hx as ->. injection Hy as ->. injection H as ->.
  eauto.
Qed.
Print Assumptions C34_covariance_value.

(** Symmetric, positive on the diagonal and zero there only for constant vectors,
    unchanged by translations, bounded by the variances. *)
Theorem C34_covariance : forall x y c vx vy, covariance x y = Ok c -> covariance x x = Ok vx ->
  covariance y y = Ok vy ->
  (exists c', covariance y x = Ok c' /\ c' == c)
  /\ 0 <= vx
  /\ (vx == 0 <-> exists k, forall a, In a x -> a == k)
  /\ (forall t, exists c', covariance (map (fun a => a + t) x) y = Ok c' /\ c' == c)
  /\ c * c <= vx * vy.
Proof.
  intros x y c vx vy H Hx Hy.
  assert (x <> []) as Hne by (intros ->; discriminate).
  assert (length x = length y) as Hl.
  { destruct (Nat.eq_dec (length x) (length y)) as [E|E]; auto.
    apply (proj1 (C34_covariance_errors x y)) in E. congruence. }
  assert (y <> []) as Hny by (destruct x, y; simpl in *; congruence).
  pose proof (len_pos x Hne) as Hp.
  assert (Hll : len y = len x) by (unfold len; congruence).
  destruct (covariance_ok x y Hne Hl) as (mx & my & c0 & Ex & Ey & Ec & Ed).
  rewrite Ec in H. injection H as ->.
  destruct (covariance_ok x x Hne eq_refl) as (mx1 & mx2 & c1 & Ex1 & Ex2 & Ec1 & Ed1).
  rewrite Ex in Ex1, Ex2. injection Ex1 as <-. injection Ex2 as <-. rewrite Ec1 in Hx. injection Hx as ->.
  destruct (covariance_ok y y Hny eq_refl) as (my1 & my2 & c2 & Ey1 & Ey2 & Ec2 & Ed2).
  rewrite Ey in Ey1, Ey2. injection Ey1 as <-. injection Ey2 as <-. rewrite Ec2 in Hy. injection Hy as ->.
  rewrite Hll in Ed2.
  assert (I : 0 < / len x) by (apply Qinv_lt_0_compat; auto).
  split; [|split; [|split; [|split]]].
  - destruct (covariance_ok y x Hny (eq_sym Hl)) as (m1 & m2 & c' & E1 & E2 & E3 & E4).
    rewrite Ey in E1. rewrite Ex in E2. injection E1 as <-. injection E2 as <-.
    exists c'. split; auto. rewrite E4, Ed, Hll, dot_sym. reflexivity.
  - rewrite Ed1. unfold Qdiv. apply Qmult_le_0_compat; [apply dot_nonneg|lra].
  - split.
    + intros Hz. exists mx. intros a Ha. rewrite Hz in Ed1.
      assert (dot (centred mx x) (centred mx x) == 0) as D.
      { assert (dot (centred mx x) (centred mx x)
                == dot (centred mx x) (centred mx x) / len x * len x) as -> by (field; lra).
        rewrite <- Ed1. ring. }
      apply dot_self_zero in D. rewrite Forall_forall in D.
      specialize (D (a - mx)). assert (a - mx == 0) as E; [|lra].
      apply D. unfold centred. apply in_map_iff. exists a. auto.
    + intros [k Hk]. rewrite Ed1.
      assert (mx == k) as Hm.
      { pose proof (proj2 (C34_mean x) Hne) as (m & Em & _ & Hb & _). rewrite Ex in Em. injection Em as <-.
        specialize (Hb k k). apply Qle_antisym; apply Hb; intros a Ha; rewrite (Hk a Ha); split; apply Qle_refl. }
      assert (dot (centred mx x) (centred mx x) == 0) as D.
      { assert (forall l, (forall a, In a l -> a == k) -> dot (centred mx l) (centred mx l) == 0) as G.
        { induction l as [|a l IH]; simpl; intros G; [reflexivity|].
          rewrite IH by auto. rewrite (G a) by auto. rewrite Hm. ring. }
        apply G. auto. }
      rewrite D. field. lra.
  - intros t. destruct (mean_shift t x mx Ex) as (mx' & Em' & Hm').
    assert (map (fun a => a + t) x <> []) as Hne' by (destruct x; simpl; congruence).
    assert (length (map (fun a => a + t) x) = length y) as Hl' by (rewrite map_length; auto).
    destruct (covariance_ok _ y Hne' Hl') as (m1 & m2 & c' & E1 & E2 & E3 & E4).
    rewrite Em' in E1. rewrite Ey in E2. injection E1 as <-. injection E2 as <-.
    exists c'. split; auto. rewrite E4, Ed, len_map, (dot_centred_shift t mx mx'); auto. reflexivity.
  - rewrite Ed, Ed1, Ed2.
    pose proof (cauchy_schwarz (centred mx x) (centred my y)) as CS.
    assert (length (centred mx x) = length (centred my y)) as Hlc
      by (unfold centred; rewrite !map_length; auto).
    specialize (CS Hlc).
    set (p := dot (centred mx x) (centred my y)) in *.
    set (q := dot (centred mx x) (centred mx x)) in *.
    set (r := dot (centred my y) (centred my y)) in *.
    unfold Qdiv.
    assert (p * / len x * (p * / len x) == (p * p) * (/ len x * / len x)) as -> by ring.
    assert (q * / len x * (r * / len x) == (q * r) * (/ len x * / len x)) as -> by ring.
    apply Qmult_le_compat_r; auto. nra.
Qed.
Print Assumptions C34_covariance.

Example C34_covariance_example :
  (exists c, covariance [1; 2; 3] [2; 4; 9] = Ok c /\ c == 7 # 3)
  /\ covariance [1; 2] [1] = Err ValueError
  /\ (exists c, covariance [5; 5; 5] [5; 5; 5] = Ok c /\ c == 0).
Proof. split; [eexists; split; reflexivity|]. split; [reflexivity|]. eexists; split; reflexivity. Qed.

(** Proofs about parameters and dimensionless variables. *)
From Coq Require Import ZArith QArith Qabs Qround Lqa Lia Bool String List.
From Verif Require Import Base BaseProofs ParamModel.
Import ListNotations.
Open Scope Q_scope.
Local Arguments Qabs : simpl never.
Local Arguments Qplus : simpl never.
Local Arguments Qminus : simpl never.
Local Arguments Qmult : simpl never.
Local Arguments Qdiv : simpl never.

Lemma py_div_ok a b : ~ b == 0 -> py_div a b = Ok (a / b).
Proof. intros H. unfold py_div. destruct (Qeq_bool b 0) eqn:E; auto. apply Qeq_bool_iff in E. contradiction. Qed.

Lemma py_div_zero a b : b == 0 -> py_div a b = Err ZeroDivisionError.
Proof. intros H. unfold py_div. apply Qeq_bool_iff in H. rewrite H. auto. Qed.

Lemma div_range lo hi v : lo < hi -> (lo <= v <= hi <-> 0 <= (v - lo) / (hi - lo) <= 1).
Proof.
  intros H. assert (E : v == lo + (v - lo) / (hi - lo) * (hi - lo)) by (field; lra). split; intros R.
  - split; [apply Qle_shift_div_l|apply Qle_shift_div_r]; lra.
  - set (n := (v - lo) / (hi - lo)) in *.
    assert (0 <= n * (hi - lo)) by (apply Qmult_le_0_compat; lra).
    assert (0 <= (1 - n) * (hi - lo)) by (apply Qmult_le_0_compat; lra). lra.
Qed.

(** ** Periods *)

Lemma Qfloor_plus_Z x k : Qfloor (x + inject_Z k) = (Qfloor x + k)%Z.
Proof.
  pose proof (Qfloor_le x) as F1. pose proof (Qlt_floor x) as F2. rewrite inject_Z_plus in F2.
  pose proof (Qfloor_le (x + inject_Z k)) as G1. pose proof (Qlt_floor (x + inject_Z k)) as G2.
  rewrite inject_Z_plus in G2. change (inject_Z 1) with 1 in *.
  assert (A : inject_Z (Qfloor (x + inject_Z k)) < inject_Z (Qfloor x + k + 1)).
  { rewrite !inject_Z_plus. change (inject_Z 1) with 1. lra. }
  assert (B : inject_Z (Qfloor x + k) < inject_Z (Qfloor (x + inject_Z k) + 1)).
  { rewrite !inject_Z_plus. change (inject_Z 1) with 1. lra. }
  rewrite <- Zlt_Qlt in A, B. lia.
Qed.

Lemma py_mod_ok a p : ~ p == 0 -> py_mod a p = Ok (a - p * inject_Z (Qfloor (a / p))).
Proof. intros H. unfold py_mod. destruct (Qeq_bool p 0) eqn:E; auto. apply Qeq_bool_iff in E. contradiction. Qed.

Lemma mod_shift a p k : ~ p == 0 ->
  a + inject_Z k * p - p * inject_Z (Qfloor ((a + inject_Z k * p) / p)) == a - p * inject_Z (Qfloor (a / p)).
Proof.
  intros H. assert ((a + inject_Z k * p) / p == a / p + inject_Z k) as E by (field; auto).
  rewrite (Qfloor_comp _ _ E), Qfloor_plus_Z, inject_Z_plus. ring.
Qed.

(** the remainder has the sign of the period and is smaller *)
Lemma mod_bound a p : ~ p == 0 -> Qabs (a - p * inject_Z (Qfloor (a / p))) <= Qabs p.
Proof.
  intros H. pose proof (Qfloor_le (a / p)) as F1. pose proof (Qlt_floor (a / p)) as F2.
  rewrite inject_Z_plus in F2. change (inject_Z 1) with 1 in F2.
  set (f := inject_Z (Qfloor (a / p))) in *. set (r := a / p - f).
  assert (a - p * f == p * r) as -> by (unfold r; field; auto).
  rewrite Qabs_Qmult. rewrite (Qabs_pos r) by (unfold r; lra).
  pose proof (Qabs_nonneg p).
  assert (0 <= Qabs p * (1 - r)) by (apply Qmult_le_0_compat; unfold r; lra). lra.
Qed.

Global Instance Qle_bool_comp : Proper (Qeq ==> Qeq ==> eq) Qle_bool.
Proof.
  intros a b E c d F. destruct (Qle_bool a c) eqn:H, (Qle_bool b d) eqn:G; auto.
  - apply Qle_bool_iff in H. rewrite E, F in H. apply Qle_bool_iff in H. congruence.
  - apply Qle_bool_iff in G. rewrite <- E, <- F in G. apply Qle_bool_iff in G. congruence.
Qed.

Global Instance Qeq_bool_comp' : Proper (Qeq ==> Qeq ==> eq) Qeq_bool.
Proof.
  intros a b E c d F. destruct (Qeq_bool a c) eqn:H, (Qeq_bool b d) eqn:G; auto.
  - apply Qeq_bool_iff in H. rewrite E, F in H. apply Qeq_bool_iff in H. congruence.
  - apply Qeq_bool_iff in G. rewrite <- E, <- F in G. apply Qeq_bool_iff in G. congruence.
Qed.

Lemma isclose_comp a a' b b' t : a == a' -> b == b' -> isclose a b t = isclose a' b' t.
Proof.
  intros E F. unfold isclose. cbv zeta. destruct (negb (Qle_bool 0 t)); auto.
  assert (Qeq_bool a b = Qeq_bool a' b') as -> by (rewrite E, F; auto).
  destruct (Qeq_bool a' b'); auto. f_equal. f_equal; [f_equal|]; rewrite E, F; auto.
Qed.

Lemma isclose_sym a b t : isclose a b t = isclose b a t.
Proof.
  unfold isclose. destruct (negb (Qle_bool 0 t)); auto.
  assert (Qeq_bool a b = Qeq_bool b a) as ->.
  { destruct (Qeq_bool a b) eqn:H, (Qeq_bool b a) eqn:G; auto.
    - apply Qeq_bool_iff in H. symmetry in H. apply Qeq_bool_iff in H. congruence.
    - apply Qeq_bool_iff in G. symmetry in G. apply Qeq_bool_iff in G. congruence. }
  destruct (Qeq_bool b a); auto. rewrite (Qabs_Qminus b a).
  f_equal. rewrite (orb_comm (Qle_bool (Qabs (a - b)) (Qabs ((1 # 1000000000) * b)))). auto.
Qed.

Lemma isclose_refl a t : 0 <= t -> isclose a a t = Ok true.
Proof.
  intros H. unfold isclose. apply Qle_bool_iff in H. rewrite H. simpl.
  assert (Qeq_bool a a = true) as -> by (apply Qeq_bool_iff; reflexivity). auto.
Qed.

Lemma isclose_iff a b t : 0 <= t -> exists c, isclose a b t = Ok c
  /\ (c = true <-> Qabs (b - a) <= (1 # 1000000000) * Qabs a \/ Qabs (b - a) <= (1 # 1000000000) * Qabs b
                   \/ Qabs (b - a) <= t).
Proof.
  intros H. unfold isclose. apply Qle_bool_iff in H as H'. rewrite H'. simpl.
  destruct (Qeq_bool a b) eqn:E.
  - exists true. split; auto. split; auto. intros _. apply Qeq_bool_iff in E. right. right.
    rewrite E. setoid_replace (b - b) with 0 by ring. auto.
  - eexists. split; [reflexivity|]. rewrite !orb_true_iff, !Qle_bool_iff, !Qabs_Qmult.
    setoid_replace (Qabs (1 # 1000000000)) with (1 # 1000000000) by reflexivity. tauto.
Qed.

(** ** Minimum and maximum *)

Lemma min_spec l : forall x, let m := fold_left (fun m y => if Qle_bool m y then m else y) l x in
  In m (x :: l) /\ forall y, In y (x :: l) -> m <= y.
Proof.
  induction l as [|y l IH]; intros x; simpl.
  - split; auto. intros y [<-|[]]. lra.
  - destruct (Qle_bool x y) eqn:E.
    + apply Qle_bool_iff in E. destruct (IH x) as [A B]. split.
      * destruct A; auto.
      * intros z [<-|[<-|Hz]].
        -- apply B. simpl; auto.
        -- apply Qle_trans with x; auto. apply B. simpl; auto.
        -- apply B. simpl; auto.
    + assert (y <= x) as L.
      { destruct (Qlt_le_dec x y) as [C|C]; auto. apply Qlt_le_weak, Qle_bool_iff in C. congruence. }
      destruct (IH y) as [A B]. split; auto.
      intros z [<-|[<-|Hz]].
      -- apply Qle_trans with y; auto. apply B. simpl; auto.
      -- apply B. simpl; auto.
      -- apply B. simpl; auto.
Qed.

Lemma max_spec l : forall x, let m := fold_left (fun m y => if Qle_bool y m then m else y) l x in
  In m (x :: l) /\ forall y, In y (x :: l) -> y <= m.
Proof.
  induction l as [|y l IH]; intros x; simpl.
  - split; auto. intros y [<-|[]]. lra.
  - destruct (Qle_bool y x) eqn:E.
    + apply Qle_bool_iff in E. destruct (IH x) as [A B]. split.
      * destruct A; auto.
      * intros z [<-|[<-|Hz]].
        -- apply B. simpl; auto.
        -- apply Qle_trans with x; auto. apply B. simpl; auto.
        -- apply B. simpl; auto.
    + assert (x <= y) as L.
      { destruct (Qlt_le_dec y x) as [C|C]; auto. apply Qlt_le_weak, Qle_bool_iff in C. congruence. }
      destruct (IH y) as [A B]. split; auto.
      intros z [<-|[<-|Hz]].
      -- apply Qle_trans with y; auto. apply B. simpl; auto.
      -- apply B. simpl; auto.
      -- apply B. simpl; auto.
Qed.

Lemma py_min_ok l m : py_min l = Ok m -> In m l /\ forall y, In y l -> m <= y.
Proof. destruct l as [|x l]; [discriminate|]. intros [= <-]. apply min_spec. Qed.

Lemma py_max_ok l m : py_max l = Ok m -> In m l /\ forall y, In y l -> y <= m.
Proof. destruct l as [|x l]; [discriminate|]. intros [= <-]. apply max_spec. Qed.

(** ** Dictionaries *)

Lemma dict_get_set d k k' v : dict_get (dict_set d k v) k' = if String.eqb k' k then Some v else dict_get d k'.
Proof.
  induction d as [|[k1 v1] d IH]; simpl; auto.
  destruct (String.eqb k k1) eqn:E; simpl.
  - apply String.eqb_eq in E. subst k1. destruct (String.eqb k' k); auto.
  - rewrite IH. destruct (String.eqb k' k) eqn:E1, (String.eqb k' k1) eqn:E2; auto.
    apply String.eqb_eq in E1. apply String.eqb_eq in E2. subst. rewrite String.eqb_refl in E. discriminate.
Qed.

Definition sets (kvs d : list (string * Q)) : list (string * Q) :=
  fold_left (fun d kv => dict_set d (fst kv) (snd kv)) kvs d.

Lemma sets_absent kvs : forall d k, ~ In k (map fst kvs) -> dict_get (sets kvs d) k = dict_get d k.
Proof.
  induction kvs as [|[k1 v1] kvs IH]; intros d k H; simpl in *; auto.
  unfold sets in *. simpl. rewrite IH by tauto. rewrite dict_get_set.
  destruct (String.eqb k k1) eqn:E; auto. apply String.eqb_eq in E. subst. tauto.
Qed.

Lemma sets_present kvs : forall d k v, NoDup (map fst kvs) -> In (k, v) kvs -> dict_get (sets kvs d) k = Some v.
Proof.
  induction kvs as [|[k1 v1] kvs IH]; intros d k v H Hin; simpl in *; [contradiction|].
  inversion H as [|? ? Hn Hd]; subst. unfold sets in *. simpl. destruct Hin as [[= -> ->]|Hin].
  - rewrite (sets_absent kvs) by auto. rewrite dict_get_set, String.eqb_refl. auto.
  - apply IH; auto.
Qed.

Lemma sets_keys kvs : forall d k, dict_get (sets kvs d) k <> None <-> In k (map fst kvs) \/ dict_get d k <> None.
Proof.
  induction kvs as [|[k1 v1] kvs IH]; intros d k; simpl; [tauto|].
  unfold sets in *. simpl. rewrite IH, dict_get_set. destruct (String.eqb k k1) eqn:E.
  - apply String.eqb_eq in E. subst. split; [auto|]. intros _. right. discriminate.
  - apply String.eqb_neq in E. intuition congruence.
Qed.

Lemma vector_to_attributes_sets fixed bds v : vector_to_attributes_values fixed bds v
  = sets (combine (map attribute_name bds) v) (sets (map (fun fp => (fixed_name fp, fixed_value fp)) fixed) []).
Proof.
  unfold vector_to_attributes_values, sets.
  assert (E : forall d, fold_left (fun attributes bx => dict_set attributes (attribute_name (fst bx)) (snd bx))
     (combine bds v) d = fold_left (fun d kv => dict_set d (fst kv) (snd kv)) (combine (map attribute_name bds) v) d).
  { revert v. induction bds as [|b bds IH]; intros [|x v] d; simpl; auto. }
  rewrite E. f_equal. generalize (@nil (string * Q)) as d. clear. induction fixed as [|f fixed IH]; intros d; simpl; auto.
Qed.

Lemma combine_fst {A B} (l : list A) : forall (m : list B), length l = length m -> map fst (combine l m) = l.
Proof. induction l as [|x l IH]; intros [|y m] H; simpl in *; try discriminate; auto. f_equal. auto. Qed.

Lemma nth_error_combine {A B} (l : list A) : forall (m : list B) i x y,
  nth_error l i = Some x -> nth_error m i = Some y -> In (x, y) (combine l m).
Proof.
  induction l as [|a l IH]; intros [|b m] [|i] x y; simpl; try discriminate.
  - intros [= ->] [= ->]. auto.
  - intros H1 H2. right. eapply IH; eauto.
Qed.

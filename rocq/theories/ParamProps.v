(** C37: normalised parameters, periodic values, dimensionless variables, optimisers. *)
From Coq Require Import ZArith QArith Qabs Qround Lqa Lia Bool String List.
From Verif Require Import Base BaseProofs BlocksProofs ParamModel ParamProofs.
Import ListNotations.
Open Scope Q_scope.

(** ** Normalisation *)

Theorem C37_normalize : forall p value, lower_bound p < upper_bound p ->
  exists n, normalize p value = Ok n /\ original_value p n == value
    /\ (lower_bound p <= value <= upper_bound p <-> 0 <= n <= 1).
Proof.
  intros p v H. unfold normalize. rewrite py_div_ok by lra. eexists. split; [reflexivity|].
  split; [unfold original_value; field; lra|]. apply div_range. auto.
Qed.
Print Assumptions C37_normalize.

Theorem C37_original : forall p n, lower_bound p < upper_bound p ->
  exists n', normalize p (original_value p n) = Ok n' /\ n' == n.
Proof.
  intros p n H. unfold normalize. rewrite py_div_ok by lra. eexists. split; [reflexivity|].
  unfold original_value. field. lra.
Qed.
Print Assumptions C37_original.

Theorem C37_no_interval : forall p value, lower_bound p == upper_bound p ->
  normalize p value = Err ZeroDivisionError.
Proof. intros p v H. apply py_div_zero. lra. Qed.
Print Assumptions C37_no_interval.

Example C37_normalize_example :
  normalize {| lower_bound := 10; upper_bound := 20; periodicity := None |} 12 = Ok ((12 - 10) / (20 - 10))
  /\ original_value {| lower_bound := 10; upper_bound := 20; periodicity := None |} (1 # 5) == 12
  /\ normalize {| lower_bound := 10; upper_bound := 10; periodicity := None |} 12 = Err ZeroDivisionError.
Proof. repeat split; reflexivity. Qed.

(** ** The same for dimensionless variables *)

Theorem C37_dimensionless : forall b value, min_value b < max_value b ->
  exists x, dimensionless_value b value = Ok x /\ dimensionless_to_value b x == value
    /\ (min_value b <= value <= max_value b <-> 0 <= x <= 1).
Proof.
  intros b v H. unfold dimensionless_value, interval_length. rewrite py_div_ok by lra.
  eexists. split; [reflexivity|].
  split; [unfold dimensionless_to_value, interval_length; field; lra|]. apply div_range. auto.
Qed.
Print Assumptions C37_dimensionless.

Theorem C37_dimensionless_back : forall b x, min_value b < max_value b ->
  exists x', dimensionless_value b (dimensionless_to_value b x) = Ok x' /\ x' == x.
Proof.
  intros b x H. unfold dimensionless_value, dimensionless_to_value, interval_length.
  rewrite py_div_ok by lra. eexists. split; [reflexivity|]. field. lra.
Qed.
Print Assumptions C37_dimensionless_back.

Example C37_dimensionless_example :
  dimensionless_to_value {| attribute_name := "length"; min_value := -(2); max_value := 6 |} (1 # 4) == 0
  /\ dimensionless_value {| attribute_name := "length"; min_value := -(2); max_value := 6 |} 0 = Ok ((0 - -(2)) / (6 - -(2))).
Proof. split; reflexivity. Qed.

(** ** Equality of values *)

Theorem C37_equal : forall p v1 v2 tol, 0 <= tol -> match periodicity p with Some q => ~ q == 0 | None => True end ->
  are_values_equal p v1 v1 tol = Ok true
  /\ are_values_equal p v1 v2 tol = are_values_equal p v2 v1 tol
  /\ exists b, are_values_equal p v1 v2 tol = Ok b.
Proof.
  intros p v1 v2 tol Ht Hp. unfold are_values_equal. destruct (periodicity p) as [q|].
  - rewrite !(py_mod_ok _ _ Hp). cbn [bind]. split; [apply isclose_refl; auto|]. split; [apply isclose_sym|].
    destruct (isclose_iff (v1 - q * inject_Z (Qfloor (v1 / q))) (v2 - q * inject_Z (Qfloor (v2 / q))) tol Ht)
      as (c & E & _). eauto.
  - split; [apply isclose_refl; auto|]. split; [apply isclose_sym|].
    destruct (isclose_iff v1 v2 tol Ht) as (c & E & _). eauto.
Qed.
Print Assumptions C37_equal.

(** Adding periods changes nothing. *)
Theorem C37_periods : forall p q v1 v2 tol k1 k2, periodicity p = Some q -> ~ q == 0 ->
  are_values_equal p (v1 + inject_Z k1 * q) (v2 + inject_Z k2 * q) tol = are_values_equal p v1 v2 tol.
Proof.
  intros p q v1 v2 tol k1 k2 Hp Hq. unfold are_values_equal. rewrite Hp, !(py_mod_ok _ _ Hq). cbn [bind].
  apply isclose_comp; apply mod_shift; auto.
Qed.
Print Assumptions C37_periods.

(** Values held equal are, up to some periods, closer than the tolerance (plus the
    relative tolerance of a billionth of the period). *)
Theorem C37_equal_close : forall p q v1 v2 tol, periodicity p = Some q -> ~ q == 0 -> 0 <= tol ->
  are_values_equal p v1 v2 tol = Ok true ->
  exists k, Qabs (v1 - v2 + inject_Z k * q) <= tol + (1 # 1000000000) * Qabs q.
Proof.
  intros p q v1 v2 tol Hp Hq Ht H. unfold are_values_equal in H. rewrite Hp, !(py_mod_ok _ _ Hq) in H.
  cbn [bind] in H.
  destruct (isclose_iff (v1 - q * inject_Z (Qfloor (v1 / q))) (v2 - q * inject_Z (Qfloor (v2 / q))) tol Ht)
    as (c & E & I). rewrite E in H. injection H as ->. clear E. destruct I as [I _]. specialize (I eq_refl).
  exists (Qfloor (v2 / q) - Qfloor (v1 / q))%Z.
  pose proof (mod_bound v1 q Hq) as B1. pose proof (mod_bound v2 q Hq) as B2. pose proof (Qabs_nonneg q) as B3.
  assert (v1 - v2 + inject_Z (Qfloor (v2 / q) - Qfloor (v1 / q)) * q
          == v1 - q * inject_Z (Qfloor (v1 / q)) - (v2 - q * inject_Z (Qfloor (v2 / q)))) as ->.
  { unfold Z.sub. rewrite inject_Z_plus, inject_Z_opp. ring. }
  rewrite Qabs_Qminus. lra.
Qed.
Print Assumptions C37_equal_close.

(** Without periodicity equality is closeness. *)
Theorem C37_equal_plain : forall p v1 v2 tol, periodicity p = None -> 0 <= tol ->
  (are_values_equal p v1 v2 tol = Ok true
   <-> Qabs (v2 - v1) <= (1 # 1000000000) * Qabs v1 \/ Qabs (v2 - v1) <= (1 # 1000000000) * Qabs v2
       \/ Qabs (v2 - v1) <= tol).
Proof.
  intros p v1 v2 tol Hp Ht. unfold are_values_equal. rewrite Hp.
  destruct (isclose_iff v1 v2 tol Ht) as (c & -> & I). rewrite <- I. split; [intros [= ->]; auto|intros ->; auto].
Qed.
Print Assumptions C37_equal_plain.

(** The converse fails around the period: 0 and 359.999 degrees are a thousandth of a
    degree apart and held different.  Equality is not transitive either. *)
Theorem C37_wrap_refuted :
  let angle := {| lower_bound := 0; upper_bound := 360; periodicity := Some 360 |} in
  (Qabs (0 - (359999 # 1000) + inject_Z 1 * 360) <= 1 # 1000
   /\ are_values_equal angle 0 (359999 # 1000) (1 # 100) = Ok false)
  /\ are_values_equal angle 0 (1 # 100) (1 # 100) = Ok true
  /\ are_values_equal angle (1 # 100) (2 # 100) (1 # 100) = Ok true
  /\ are_values_equal angle 0 (2 # 100) (1 # 100) = Ok false.
Proof. vm_compute. repeat split; discriminate. Qed.
Print Assumptions C37_wrap_refuted.

Example C37_equal_example :
  let angle := {| lower_bound := 0; upper_bound := 360; periodicity := Some 360 |} in
  are_values_equal angle 10 (-(350)) (1 # 100) = Ok true /\ are_values_equal angle 10 20 (1 # 100) = Ok false.
Proof. vm_compute. auto. Qed.

(** ** Parameter sets *)

(** Each parameter of a set is bounded by two of its values and contains them all. *)
Theorem C37_parameter_set : forall values ps, parameters values = Ok ps ->
  Forall2 (fun kv np => fst np = fst kv /\ periodicity (snd np) = None
    /\ In (lower_bound (snd np)) (snd kv) /\ In (upper_bound (snd np)) (snd kv)
    /\ (forall v, In v (snd kv) -> lower_bound (snd np) <= v <= upper_bound (snd np))
    /\ (forall v, In v (snd kv) -> lower_bound (snd np) < upper_bound (snd np) ->
          exists n, normalize (snd np) v = Ok n /\ 0 <= n <= 1)) values ps.
Proof.
  induction values as [|[k vs] values IH]; intros ps H; unfold parameters in H; simpl in H.
  - injection H as <-. constructor.
  - destruct (py_min vs) as [lo|] eqn:E1; simpl in H; [|discriminate].
    destruct (py_max vs) as [hi|] eqn:E2; simpl in H; [|discriminate].
    fold (parameters values) in H. destruct (parameters values) as [ps'|] eqn:E3; simpl in H; [|discriminate].
    injection H as <-. constructor; auto. simpl.
    apply py_min_ok in E1. apply py_max_ok in E2. destruct E1 as [A1 A2], E2 as [B1 B2].
    repeat split; auto.
    intros v Hv Hlt.
    destruct (C37_normalize {| lower_bound := lo; upper_bound := hi; periodicity := None |} v Hlt)
      as (n & En & _ & I). exists n. split; auto. apply I. simpl. auto.
Qed.
Print Assumptions C37_parameter_set.

Theorem C37_parameter_set_empty : forall values,
  (exists ps, parameters values = Ok ps) <-> forall kv, In kv values -> snd kv <> [].
Proof.
  induction values as [|[k vs] values IH]; unfold parameters; simpl.
  - split; [intros _ kv []|]. eauto.
  - fold (parameters values). destruct vs as [|v vs]; simpl.
    + split; [intros [ps [=]]|]. intros H. specialize (H (k, []) (or_introl eq_refl)). simpl in H. congruence.
    + split.
      * intros [ps H]. destruct (parameters values) as [ps'|] eqn:E; simpl in H; [|discriminate].
        intros kv [<-|Hin]; [discriminate|]. apply IH; eauto.
      * intros H. destruct (proj2 IH) as [ps E]; [intros kv Hin; apply H; auto|]. rewrite E. simpl. eauto.
Qed.
Print Assumptions C37_parameter_set_empty.

Example C37_parameter_set_example :
  parameters [("a"%string, [3; 1; 2]); ("b"%string, [5])]
  = Ok [("a"%string, {| lower_bound := 1; upper_bound := 3; periodicity := None |});
        ("b"%string, {| lower_bound := 5; upper_bound := 5; periodicity := None |})].
Proof. reflexivity. Qed.

(** ** Vectors of the optimiser *)

Section Optimizer.
Variable fixed_parameters : list fixed_attribute.
Variable optimization_bounds : list bounded_attribute.
Let vector := dimensionless_vector_to_vector optimization_bounds.
Let attributes := vector_to_attributes_values fixed_parameters optimization_bounds.

(** A vector of the unit cube becomes a vector within the bounds, component by component. *)
Theorem C37_vector : forall x, List.length x = List.length optimization_bounds ->
  Forall (fun b => min_value b <= max_value b) optimization_bounds -> Forall (fun xi => 0 <= xi <= 1) x ->
  Forall2 (fun b v => min_value b <= v <= max_value b) optimization_bounds (vector x).
Proof.
  unfold vector, dimensionless_vector_to_vector. clear vector attributes.
  induction optimization_bounds as [|b bs IH]; intros [|xi x] Hl Hb Hx; simpl in *; try discriminate; auto.
  inversion Hb as [|? ? Hb1 Hb2]; inversion Hx as [|? ? Hx1 Hx2]; subst. constructor; auto. simpl.
  unfold dimensionless_to_value, interval_length.
  assert (0 <= xi * (max_value b - min_value b)) by (apply Qmult_le_0_compat; lra).
  assert (0 <= (1 - xi) * (max_value b - min_value b)) by (apply Qmult_le_0_compat; lra). lra.
Qed.

(** Each bounded attribute gets its component; a fixed one keeps its value unless an
    attribute of that name is bounded; there is no other attribute. *)
Theorem C37_attributes : forall v, List.length v = List.length optimization_bounds ->
  NoDup (map attribute_name optimization_bounds) -> NoDup (map fixed_name fixed_parameters) ->
  (forall i b xi, nth_error optimization_bounds i = Some b -> nth_error v i = Some xi ->
     dict_get (attributes v) (attribute_name b) = Some xi)
  /\ (forall fp, In fp fixed_parameters -> ~ In (fixed_name fp) (map attribute_name optimization_bounds) ->
        dict_get (attributes v) (fixed_name fp) = Some (fixed_value fp))
  /\ (forall k, dict_get (attributes v) k <> None
        <-> In k (map attribute_name optimization_bounds) \/ In k (map fixed_name fixed_parameters)).
Proof.
  intros v Hl Nb Nf. unfold attributes. rewrite vector_to_attributes_sets.
  assert (Ek : map fst (combine (map attribute_name optimization_bounds) v) = map attribute_name optimization_bounds).
  { apply combine_fst. rewrite map_length. auto. }
  assert (Ef : map fst (map (fun fp => (fixed_name fp, fixed_value fp)) fixed_parameters) = map fixed_name fixed_parameters).
  { rewrite map_map. auto. }
  split; [|split].
  - intros i b xi Hi Hx. apply sets_present; [rewrite Ek; auto|].
    apply (nth_error_combine _ _ i); auto. rewrite nth_error_map, Hi. auto.
  - intros fp Hin Hn. rewrite sets_absent by (rewrite Ek; auto). apply sets_present; [rewrite Ef; auto|].
    apply in_map_iff. eauto.
  - intros k. rewrite !sets_keys, Ek, Ef. simpl. intuition congruence.
Qed.

Variable model : Type.
Variable instantiate_model : list (string * Q) -> res model.
Variable objective_from_model : model -> res Q.
Variable getattr : model -> string -> res Q.
Variable minimize : (list Q -> res Q) -> list Q -> list (Q * Q) -> res (list Q * Q).
Variable fmin : (list Q -> res Q) -> list Q -> list (Q * Q) -> res (list Q * Q).
Variable random : nat -> list Q.
Let objective := objective_from_dimensionless_vector fixed_parameters optimization_bounds model
                   instantiate_model objective_from_model.
Let gradient := optimize_gradient fixed_parameters optimization_bounds model instantiate_model
                  objective_from_model minimize random.
Let cma := optimize_cma fixed_parameters optimization_bounds model instantiate_model
             objective_from_model fmin random.
Let cma_then_gradient := optimize_cma_then_gradient fixed_parameters optimization_bounds model
                           instantiate_model objective_from_model getattr minimize fmin random.

(** A solver is honest when the cost it reports is that of the point it returns. *)
Definition honest (solver : (list Q -> res Q) -> list Q -> list (Q * Q) -> res (list Q * Q)) : Prop :=
  forall f x0 bds x c, solver f x0 bds = Ok (x, c) -> f x = Ok c.

(** The model returned has the cost returned, and its attributes are those of the point
    found: within their bounds if the solver stays in the unit cube. *)
Theorem C37_gradient : honest minimize -> forall x0 m c, gradient x0 = Ok (m, c) ->
  objective_from_model m = Ok c
  /\ exists x, instantiate_model (attributes (vector x)) = Ok m /\ objective x = Ok c.
Proof.
  intros Hh x0 m c H. unfold gradient, optimize_gradient in H.
  destruct (minimize _ _ _) as [[x c']|] eqn:E; simpl in H; [|discriminate].
  destruct (instantiate_model _) as [m'|] eqn:Em; simpl in H; [|discriminate]. injection H as -> ->.
  apply Hh in E. fold objective in E. split; [|exists x; split; auto].
  unfold objective, objective_from_dimensionless_vector in E. rewrite Em in E. auto.
Qed.

Theorem C37_cma : honest fmin -> forall m c, cma = Ok (m, c) ->
  objective_from_model m = Ok c
  /\ exists x, instantiate_model (attributes (vector x)) = Ok m /\ objective x = Ok c.
Proof.
  intros Hh m c H. unfold cma, optimize_cma in H.
  destruct (fmin _ _ _) as [[x c']|] eqn:E; simpl in H; [|discriminate].
  destruct (instantiate_model _) as [m'|] eqn:Em; simpl in H; [|discriminate]. injection H as -> ->.
  apply Hh in E. fold objective in E. split; [|exists x; split; auto].
  unfold objective, objective_from_dimensionless_vector in E. rewrite Em in E. auto.
Qed.

(** Polishing never makes the result worse: it is the better of the two. *)
Theorem C37_polish : honest minimize -> honest fmin -> forall m c, cma_then_gradient = Ok (m, c) ->
  objective_from_model m = Ok c
  /\ exists m1 c1 x0 m2 c2, cma = Ok (m1, c1) /\ gradient (Some x0) = Ok (m2, c2)
       /\ c <= c1 /\ c <= c2 /\ ((m, c) = (m1, c1) \/ (m, c) = (m2, c2)).
Proof.
  intros H1 H2 m c H. unfold cma_then_gradient, optimize_cma_then_gradient in H.
  fold cma in H. fold gradient in H. destruct cma as [[m1 c1]|] eqn:E1; cbn [bind] in H; [|discriminate].
  destruct (mapM _ _) as [x0|] eqn:E2; cbn [bind] in H; [|discriminate].
  destruct (gradient (Some x0)) as [[m2 c2]|] eqn:E3; cbn [bind] in H; [|discriminate].
  cbn [snd] in H. destruct (Qle_bool c1 c2) eqn:L.
  - apply Qle_bool_iff in L. injection H as -> ->. split; [apply (C37_cma H2); auto|].
    exists m, c, x0, m2, c2. repeat split; auto; lra.
  - assert (c2 <= c1) as L'.
    { destruct (Qlt_le_dec c1 c2) as [C|C]; auto. apply Qlt_le_weak, Qle_bool_iff in C. congruence. }
    injection H as -> ->. split; [apply (C37_gradient H1 (Some x0)); auto|].
    exists m1, c1, x0, m, c. repeat split; auto; lra.
Qed.

(** A solver keeps to its bounds when each component of the point it returns lies between
    the bounds given for it. *)
Definition keeps_bounds (solver : (list Q -> res Q) -> list Q -> list (Q * Q) -> res (list Q * Q)) : Prop :=
  forall f x0 bds x c, solver f x0 bds = Ok (x, c) -> Forall2 (fun b xi => fst b <= xi <= snd b) bds x.

(** With such solvers, the model returned was built from attributes within their bounds. *)
Theorem C37_within : 
  Forall (fun b => min_value b <= max_value b) optimization_bounds ->
  NoDup (map attribute_name optimization_bounds) -> NoDup (map fixed_name fixed_parameters) ->
  forall m c,
  (keeps_bounds minimize /\ exists x0, gradient x0 = Ok (m, c)) \/ (keeps_bounds fmin /\ cma = Ok (m, c)) ->
  exists values, instantiate_model values = Ok m
    /\ (forall b, In b optimization_bounds ->
          exists v, dict_get values (attribute_name b) = Some v /\ min_value b <= v <= max_value b)
    /\ (forall fp, In fp fixed_parameters -> ~ In (fixed_name fp) (map attribute_name optimization_bounds) ->
          dict_get values (fixed_name fp) = Some (fixed_value fp)).
Proof.
  intros Hb Nb Nf m c H.
  assert (exists x, instantiate_model (attributes (vector x)) = Ok m
            /\ Forall2 (fun b xi => fst b <= xi <= snd b) (map (fun _ => (0, 1)) optimization_bounds) x) as (x & Hm & Hx).
  { destruct H as [[K (x0 & H)]|[K H]].
    - unfold gradient, optimize_gradient in H.
      destruct (minimize _ _ _) as [[x c']|] eqn:E; simpl in H; [|discriminate].
      destruct (instantiate_model _) as [m'|] eqn:Em; simpl in H; [|discriminate]. injection H as -> ->.
      exists x. split; auto. apply (K _ _ _ _ _ E).
    - unfold cma, optimize_cma in H.
      destruct (fmin _ _ _) as [[x c']|] eqn:E; simpl in H; [|discriminate].
      destruct (instantiate_model _) as [m'|] eqn:Em; simpl in H; [|discriminate]. injection H as -> ->.
      exists x. split; auto. apply (K _ _ _ _ _ E). }
  assert (List.length x = List.length optimization_bounds) as Hl.
  { apply Forall2_len in Hx. rewrite map_length in Hx. auto. }
  assert (Forall (fun xi => 0 <= xi <= 1) x) as Hu.
  { clear - Hx. remember (map _ _) as bds eqn:E. assert (Forall (fun b => b = (0, 1)) bds) as F.
    { subst. apply Forall_forall. intros b Hb. apply in_map_iff in Hb. destruct Hb as (? & <- & _). auto. }
    clear E. induction Hx as [|b xi bds x H1 H2 IH]; constructor; inversion F; subst; auto. }
  pose proof (C37_vector x Hl Hb Hu) as Hv.
  assert (List.length (vector x) = List.length optimization_bounds) as Hl'.
  { apply Forall2_len in Hv. auto. }
  destruct (C37_attributes (vector x) Hl' Nb Nf) as (A1 & A2 & _).
  exists (attributes (vector x)). split; [auto|split; auto].
  intros b Hin. apply In_nth_error in Hin. destruct Hin as (i & Hi).
  destruct (nth_error (vector x) i) as [v|] eqn:Ev.
  - exists v. split; [apply (A1 i); auto|].
    clear - Hv Hi Ev. revert i Hi Ev. induction Hv as [|b0 v0 bs vs H1 H2 IH]; intros [|i] Hi Ev; simpl in *; try discriminate; eauto.
    injection Hi as ->. injection Ev as ->. auto.
  - apply nth_error_None in Ev. assert (i < List.length optimization_bounds)%nat by (apply nth_error_Some; congruence). lia.
Qed.
End Optimizer.

(** ... and the bounds given leave out no model: whatever values are wanted within the
    bounds of the attributes, a solver that picks its point within the bounds it is given
    can return the model with these values. *)
Definition picks (x : list Q) (f : list Q -> res Q) (x0 : list Q) (bds : list (Q * Q)) : res (list Q * Q) :=
  if Nat.eqb (List.length x) (List.length bds)
     && forallb (fun bx => Qle_bool (fst (fst bx)) (snd bx) && Qle_bool (snd bx) (snd (fst bx))) (combine bds x)
  then let* c := f x in Ok (x, c) else Err ValueError.

Theorem C37_reach : forall fixed bounds (model : Type) instantiate (objective : model -> res Q) random wanted,
  Forall (fun b => min_value b < max_value b) bounds -> 
  Forall2 (fun b v => min_value b <= v <= max_value b) bounds wanted ->
  exists x, Forall2 Qeq wanted (dimensionless_vector_to_vector bounds x)
  /\ let values := vector_to_attributes_values fixed bounds (dimensionless_vector_to_vector bounds x) in
     forall m c, instantiate values = Ok m -> objective m = Ok c ->
     (forall x0, optimize_gradient fixed bounds model instantiate objective (picks x) random x0 = Ok (m, c))
     /\ optimize_cma fixed bounds model instantiate objective (picks x) random = Ok (m, c).
Proof.
  intros fixed bounds model instantiate objective random wanted Hb Hw.
  set (x := map (fun bv => (snd bv - min_value (fst bv)) / (max_value (fst bv) - min_value (fst bv))) (combine bounds wanted)).
  exists x.
  assert (Forall2 Qeq wanted (dimensionless_vector_to_vector bounds x)) as E1.
  { unfold x, dimensionless_vector_to_vector. clear x. induction Hw as [|b v bs vs H1 H2 IH]; simpl; constructor.
    - simpl. unfold dimensionless_to_value, interval_length. inversion Hb; subst. field. lra.
    - inversion Hb; subst. apply IH; auto. }
  assert (forall f x0, picks x f x0 (ParamModel.bounds bounds) = (let* c := f x in Ok (x, c))) as E2.
  { intros f x0. unfold picks. 
    assert (Nat.eqb (List.length x) (List.length (ParamModel.bounds bounds)) = true) as L.
    { apply Nat.eqb_eq. unfold x, ParamModel.bounds. apply Forall2_len in Hw. rewrite !map_length, combine_length, Hw, Nat.min_id. auto. }
    rewrite L. cbn [andb].
    assert (forallb (fun bx => Qle_bool (fst (fst bx)) (snd bx) && Qle_bool (snd bx) (snd (fst bx)))
              (combine (ParamModel.bounds bounds) x) = true) as F; [|rewrite F; auto].
    clear - Hw Hb. unfold x, ParamModel.bounds. clear x. induction Hw as [|b v bs vs H1 H2 IH]; auto.
    cbn [map combine forallb fst snd]. inversion Hb; subst. rewrite IH by auto. rewrite Bool.andb_true_r.
    assert (0 < max_value b - min_value b) as P by lra.
    apply andb_true_intro. split; apply Qle_bool_iff.
    - apply Qle_shift_div_l; auto. lra.
    - apply Qle_shift_div_r; auto. lra. }
  split; [exact E1|]. intros values m c Hm Hc.
  assert (objective_from_dimensionless_vector fixed bounds model instantiate objective x = Ok c) as E3.
  { unfold objective_from_dimensionless_vector. fold values. rewrite Hm. auto. }
  split; [intros x0; unfold optimize_gradient | unfold optimize_cma]; rewrite E2, E3; cbn [bind fst snd];
    fold values; rewrite Hm; auto.
Qed.
Print Assumptions C37_within.
Print Assumptions C37_reach.
Print Assumptions C37_vector.
Print Assumptions C37_attributes.
Print Assumptions C37_gradient.
Print Assumptions C37_cma.
Print Assumptions C37_polish.

(** ** Examples *)

Definition ex_bounds := [{| attribute_name := "length"; min_value := 10; max_value := 20 |}].
Definition ex_fixed := [{| fixed_name := "width"; fixed_value := 2 |}].
(* the model is its attributes, its cost is the distance to a length of 15 *)
Definition ex_objective (m : list (string * Q)) : res Q :=
  match dict_get m "length" with Some l => Ok (Qabs (l - 15)) | None => Err AttributeError end.
Definition ex_getattr (m : list (string * Q)) (k : string) : res Q := of_option AttributeError (dict_get m k).

Fixpoint inside (x : list Q) (bds : list (Q * Q)) : bool :=
  match x, bds with
  | xi :: x, (lo, hi) :: bds => Qle_bool lo xi && Qle_bool xi hi && inside x bds
  | _, _ => true
  end.
(* a solver that evaluates its starting point, which must be within the bounds *)
Definition ex_solver (f : list Q -> res Q) (x0 : list Q) (bds : list (Q * Q)) : res (list Q * Q) :=
  if inside x0 bds then let* c := f x0 in Ok (x0, c) else Err ValueError.

Lemma ex_honest : honest ex_solver.
Proof.
  intros f x0 bds x c. unfold ex_solver. destruct (inside x0 bds); [|discriminate].
  destruct (f x0) as [c'|] eqn:E; simpl; [|discriminate]. intros [= <- <-]. auto.
Qed.

Example C37_vector_example :
  dimensionless_vector_to_vector ex_bounds [1 # 4] = [10 + (1 # 4) * (20 - 10)]
  /\ vector_to_attributes_values ex_fixed ex_bounds [12] = [("width"%string, 2); ("length"%string, 12)]
  /\ exists m, optimize_gradient ex_fixed ex_bounds _ Ok ex_objective ex_solver (fun _ => [1 # 4]) None
     = Ok (m, 10 # 4).
Proof. split; [reflexivity|]. split; [reflexivity|]. eexists. vm_compute. reflexivity. Qed.

(** The gradient search starts from the attributes of the first model, as if they were
    dimensionless: with a length found in the middle of its interval [10, 20] it starts
    from 15 instead of 0.5, outside of its bounds. *)
Theorem C37_start_refuted :
  exists m c, optimize_cma ex_fixed ex_bounds _ Ok ex_objective ex_solver (fun _ => [1 # 2]) = Ok (m, c)
  /\ (exists r, optimize_gradient ex_fixed ex_bounds _ Ok ex_objective ex_solver (fun _ => []) (Some [1 # 2]) = Ok r)
  /\ optimize_cma_then_gradient ex_fixed ex_bounds _ Ok ex_objective ex_getattr ex_solver ex_solver
       (fun _ => [1 # 2]) = Err ValueError.
Proof.
  eexists. eexists. split; [vm_compute; reflexivity|]. split; [eexists; vm_compute; reflexivity|].
  vm_compute. reflexivity.
Qed.
Print Assumptions C37_start_refuted.

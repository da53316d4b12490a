(** Proofs about distances and moments. *)
From Coq Require Import QArith Qabs Qminmax Lqa Lia List.
From Verif Require Import Base MetricsModel.
Import ListNotations.
Open Scope Q_scope.

Local Arguments Qabs : simpl never.
Local Arguments Qplus : simpl never.
Local Arguments Qminus : simpl never.
Local Arguments Qmult : simpl never.
Local Arguments Qdiv : simpl never.

Fixpoint total (l : list Q) : Q := match l with [] => 0 | x :: l' => x + total l' end.

Lemma fold_total l : forall a, fold_left Qplus l a == a + total l.
Proof. induction l as [|x l IH]; intros a; simpl; [ring|]. rewrite IH. ring. Qed.

Lemma py_sum_total l : py_sum l == total l.
Proof. unfold py_sum. rewrite fold_total. ring. Qed.

(** ** Manhattan *)

Fixpoint l1 (a b : list Q) : Q :=
  match a, b with x :: a', y :: b' => Qabs (x - y) + l1 a' b' | _, _ => 0 end.

Lemma manhattan_l1 a : forall b, manhattan_distance a b == l1 a b.
Proof.
  intros b. unfold manhattan_distance, l1_norm. rewrite py_sum_total. unfold diff_list.
  revert b. induction a as [|x a IH]; intros [|y b]; simpl; try reflexivity. rewrite IH. reflexivity.
Qed.

Lemma l1_nonneg a : forall b, 0 <= l1 a b.
Proof.
  induction a as [|x a IH]; intros [|y b]; simpl; try lra.
  pose proof (Qabs_nonneg (x - y)). pose proof (IH b). lra.
Qed.

Lemma l1_sym a : forall b, l1 a b == l1 b a.
Proof.
  induction a as [|x a IH]; intros [|y b]; simpl; try reflexivity.
  rewrite IH. rewrite (Qabs_Qminus x y). reflexivity.
Qed.

Lemma Qabs_zero x : Qabs x == 0 -> x == 0.
Proof. pose proof (Qle_Qabs x). pose proof (Qle_Qabs (- x)). rewrite Qabs_opp in H0. lra. Qed.

Lemma l1_zero a : forall b, length a = length b -> (l1 a b == 0 <-> Forall2 Qeq a b).
Proof.
  induction a as [|x a IH]; intros [|y b]; simpl; intros Hl; try discriminate.
  - split; [constructor|reflexivity].
  - injection Hl as Hl. specialize (IH b Hl).
    pose proof (Qabs_nonneg (x - y)). pose proof (l1_nonneg a b). split.
    + intros H'. constructor.
      * assert (Qabs (x - y) == 0) as E by lra. apply Qabs_zero in E. lra.
      * apply IH. lra.
    + inversion 1 as [|? ? ? ? E F]; subst. apply IH in F.
      assert (x - y == 0) as E' by lra. rewrite E', F. reflexivity.
Qed.

Lemma l1_triangle a : forall b c, length a = length b -> length b = length c ->
  l1 a c <= l1 a b + l1 b c.
Proof.
  induction a as [|x a IH]; intros [|y b] [|z c]; simpl; intros Hab Hbc; try discriminate; try lra.
  injection Hab as Hab. injection Hbc as Hbc. specialize (IH b c Hab Hbc).
  pose proof (Qabs_triangle (x - y) (y - z)) as T.
  assert (x - y + (y - z) == x - z) as E by ring. rewrite E in T. lra.
Qed.

(** ** Euclid *)

Fixpoint sq (a b : list Q) : Q :=
  match a, b with x :: a', y :: b' => (x - y) * (x - y) + sq a' b' | _, _ => 0 end.

Lemma euclidian_sq a : forall b, sq_euclidian_distance a b == sq a b.
Proof.
  intros b. unfold sq_euclidian_distance, sq_norm. rewrite py_sum_total. unfold diff_list.
  revert b. induction a as [|x a IH]; intros [|y b]; simpl; try reflexivity. rewrite IH. reflexivity.
Qed.

Lemma square_nonneg (x : Q) : 0 <= x * x.
Proof. nra. Qed.

Lemma sq_nonneg a : forall b, 0 <= sq a b.
Proof.
  induction a as [|x a IH]; intros [|y b]; simpl; try lra.
  pose proof (square_nonneg (x - y)). pose proof (IH b). lra.
Qed.

Lemma sq_sym a : forall b, sq a b == sq b a.
Proof. induction a as [|x a IH]; intros [|y b]; simpl; try reflexivity. rewrite IH. ring. Qed.

Lemma square_zero (x : Q) : x * x == 0 -> x == 0.
Proof. intros H. destruct (Qmult_integral _ _ H); auto. Qed.

Lemma sq_zero a : forall b, length a = length b -> (sq a b == 0 <-> Forall2 Qeq a b).
Proof.
  induction a as [|x a IH]; intros [|y b]; simpl; intros Hl; try discriminate.
  - split; [constructor|reflexivity].
  - injection Hl as Hl. specialize (IH b Hl).
    pose proof (square_nonneg (x - y)). pose proof (sq_nonneg a b). split.
    + intros H'. constructor.
      * assert ((x - y) * (x - y) == 0) as E by lra. apply square_zero in E. lra.
      * apply IH. lra.
    + inversion 1 as [|? ? ? ? E F]; subst. apply IH in F.
      assert (x - y == 0) as E' by lra. rewrite E', F. ring.
Qed.

(** the scalar product of the differences, for Cauchy-Schwarz *)
Fixpoint dot (u v : list Q) : Q :=
  match u, v with x :: u', y :: v' => x * y + dot u' v' | _, _ => 0 end.

(** for every t, |u + t v|^2 >= 0 *)
Lemma dot_quadratic u : forall v t, length u = length v ->
  0 <= dot u u + (2 # 1) * t * dot u v + t * t * dot v v.
Proof.
  induction u as [|x u IH]; intros [|y v] t; simpl; intros Hl; try discriminate; try lra.
  injection Hl as Hl. specialize (IH v t Hl).
  pose proof (square_nonneg (x + t * y)) as S.
  assert (x * x + dot u u + (2 # 1) * t * (x * y + dot u v) + t * t * (y * y + dot v v)
          == (dot u u + (2 # 1) * t * dot u v + t * t * dot v v) + (x + t * y) * (x + t * y)) as E by ring.
  rewrite E. lra.
Qed.

Lemma dot_nonneg u : 0 <= dot u u.
Proof. induction u as [|x u IH]; simpl; [lra|]. pose proof (square_nonneg x). lra. Qed.

Lemma dot_zero u v : length u = length v -> dot v v == 0 -> dot u v == 0.
Proof.
  intros Hl Hv.
  assert (forall t, 0 <= dot u u + (2 # 1) * t * dot u v) as H.
  { intros t. pose proof (dot_quadratic u v t Hl) as Q'. rewrite Hv in Q'. lra. }
  destruct (Qeq_dec (dot u v) 0) as [E|E]; auto. exfalso.
  pose proof (H (- (dot u u + 1) / ((2 # 1) * dot u v))) as H'.
  assert ((2 # 1) * (- (dot u u + 1) / ((2 # 1) * dot u v)) * dot u v == - (dot u u + 1)) as E'
    by (field; auto).
  rewrite E' in H'. lra.
Qed.

Lemma cauchy_schwarz u v : length u = length v -> dot u v * dot u v <= dot u u * dot v v.
Proof.
  intros Hl. destruct (Qeq_dec (dot v v) 0) as [E|E].
  - rewrite (dot_zero u v Hl E), E. lra.
  - assert (0 < dot v v) as Hp.
    { pose proof (dot_nonneg v). apply Qle_lteq in H as [H|H]; auto. symmetry in H. contradiction. }
    pose proof (dot_quadratic u v (- dot u v / dot v v) Hl) as Q'.
    assert (dot u u + (2 # 1) * (- dot u v / dot v v) * dot u v
            + - dot u v / dot v v * (- dot u v / dot v v) * dot v v
            == (dot u u * dot v v - dot u v * dot u v) / dot v v) as E' by (field; auto).
    rewrite E' in Q'.
    assert (0 <= (dot u u * dot v v - dot u v * dot u v) / dot v v * dot v v) as H.
    { apply Qmult_le_0_compat; lra. }
    assert ((dot u u * dot v v - dot u v * dot u v) / dot v v * dot v v
            == dot u u * dot v v - dot u v * dot u v) as E'' by (field; auto).
    rewrite E'' in H. lra.
Qed.

Definition differences (a b : list Q) : list Q := map (fun ab => fst ab - snd ab) (combine a b).

Lemma differences_length a : forall b, length a = length b -> length (differences a b) = length a.
Proof. intros b H. unfold differences. rewrite map_length, combine_length, H. apply Nat.min_id. Qed.

Lemma sq_dot a : forall b, sq a b == dot (differences a b) (differences a b).
Proof. induction a as [|x a IH]; intros [|y b]; simpl; try reflexivity. rewrite IH. reflexivity. Qed.

Lemma sq_expand a : forall b c, length a = length b -> length b = length c ->
  sq a c == sq a b + sq b c + (2 # 1) * dot (differences a b) (differences b c).
Proof.
  induction a as [|x a IH]; intros [|y b] [|z c]; simpl; intros Hab Hbc; try discriminate; try ring.
  injection Hab as Hab. injection Hbc as Hbc. rewrite (IH b c Hab Hbc).
  change (map (fun ab => fst ab - snd ab) (combine a b)) with (differences a b).
  change (map (fun ab => fst ab - snd ab) (combine b c)) with (differences b c). ring.
Qed.

Lemma square_le_compare (x s : Q) : 0 <= s -> x * x <= s * s -> x <= s.
Proof. intros Hs H. destruct (Qlt_le_dec s x); auto. exfalso. nra. Qed.

Lemma sq_triangle a b c s t : length a = length b -> length b = length c ->
  0 <= s -> 0 <= t -> sq a b <= s * s -> sq b c <= t * t -> sq a c <= (s + t) * (s + t).
Proof.
  intros Hab Hbc Hs Ht H1 H2. rewrite (sq_expand a b c Hab Hbc).
  set (u := differences a b). set (v := differences b c).
  assert (length u = length v) as Hl.
  { unfold u, v. rewrite !differences_length; congruence. }
  pose proof (cauchy_schwarz u v Hl) as CS.
  rewrite (sq_dot a b) in H1 |- *. rewrite (sq_dot b c) in H2 |- *. fold u in H1 |- *. fold v in H2 |- *.
  assert (dot u u * dot v v <= (s * s) * (t * t)) as P.
  { pose proof (dot_nonneg u). pose proof (dot_nonneg v). nra. }
  assert (dot u v <= s * t) as D.
  { apply square_le_compare; [nra|]. nra. }
  nra.
Qed.

(** ** Moments *)

Lemma total_ext f g (l : list Q) : (forall x, In x l -> f x == g x) -> total (map f l) == total (map g l).
Proof.
  induction l as [|x l IH]; simpl; intros H; [reflexivity|].
  rewrite (H x) by auto. rewrite IH; auto. reflexivity.
Qed.

Lemma len_pos l : l <> [] -> 0 < len l.
Proof.
  intros H. unfold len. destruct l; [congruence|]. simpl length.
  change 0 with (inject_Z 0). rewrite <- Zlt_Qlt. lia.
Qed.

Lemma py_div_pos a b : 0 < b -> py_div a b = Ok (a / b).
Proof.
  intros H. unfold py_div. destruct (Qeq_bool b 0) eqn:E; auto.
  apply Qeq_bool_eq in E. lra.
Qed.

Lemma mean_ok l : l <> [] -> mean l = Ok (py_sum l / len l).
Proof. intros H. unfold mean. apply py_div_pos. apply len_pos. auto. Qed.

Definition centred (m : Q) (l : list Q) : list Q := map (fun x => x - m) l.

Lemma sum_dot mx my x : forall y,
  total (map (fun xy => (fst xy - mx) * (snd xy - my)) (combine x y)) == dot (centred mx x) (centred my y).
Proof. induction x as [|a x IH]; intros [|b y]; simpl; try reflexivity. rewrite IH. reflexivity. Qed.

Lemma covariance_ok x y : x <> [] -> length x = length y ->
  exists mx my c, mean x = Ok mx /\ mean y = Ok my /\ covariance x y = Ok c
    /\ c == dot (centred mx x) (centred my y) / len x.
Proof.
  intros Hx Hl. assert (y <> []) as Hy by (destruct x, y; simpl in *; congruence).
  pose proof (mean_ok x Hx) as Mx. pose proof (mean_ok y Hy) as My.
  eexists _, _, _. split; [exact Mx|]. split; [exact My|]. split.
  - unfold covariance. rewrite Hl, Nat.eqb_refl. simpl. rewrite Mx, My. simpl.
    rewrite py_div_pos by (apply len_pos; auto). reflexivity.
  - rewrite py_sum_total, sum_dot. reflexivity.
Qed.

Lemma dot_sym u : forall v, dot u v == dot v u.
Proof. induction u as [|x u IH]; intros [|y v]; simpl; try reflexivity. rewrite IH. ring. Qed.

Lemma total_shift t l : total (map (fun x => x + t) l) == total l + t * len l.
Proof.
  induction l as [|x l IH]; simpl; [unfold len; simpl; ring|]. rewrite IH.
  assert (len (x :: l) == len l + 1) as ->; [|ring].
  unfold len. simpl length. rewrite Nat2Z.inj_succ. unfold Z.succ. rewrite inject_Z_plus. reflexivity.
Qed.

Lemma len_map f l : len (map f l) = len l.
Proof. unfold len. rewrite map_length. auto. Qed.

Lemma mean_shift t l m : mean l = Ok m -> exists m', mean (map (fun x => x + t) l) = Ok m' /\ m' == m + t.
Proof.
  intros H. assert (l <> []) as Hne by (intros ->; unfold mean in H; simpl in H; discriminate).
  rewrite (mean_ok l Hne) in H. injection H as <-.
  rewrite mean_ok by (destruct l; simpl; congruence). eexists. split; [reflexivity|].
  rewrite !py_sum_total, total_shift, len_map. field.
  pose proof (len_pos l Hne). lra.
Qed.

Lemma dot_centred_shift t mx mx' my x : forall y, mx' == mx + t ->
  dot (centred mx' (map (fun a => a + t) x)) (centred my y) == dot (centred mx x) (centred my y).
Proof.
  intros y E. revert y. induction x as [|a x IH]; intros [|b y]; simpl; try reflexivity.
  rewrite IH, E. ring.
Qed.

Lemma dot_self_zero u : dot u u == 0 -> Forall (fun x => x == 0) u.
Proof.
  induction u as [|x u IH]; simpl; intros H; constructor.
  - pose proof (square_nonneg x). pose proof (dot_nonneg u). apply square_zero. lra.
  - apply IH. pose proof (square_nonneg x). pose proof (dot_nonneg u). lra.
Qed.

Lemma total_bounds lo hi l : Forall (fun x => lo <= x <= hi) l ->
  lo * len l <= total l <= hi * len l.
Proof.
  induction 1 as [|x l H F IH]; simpl.
  { assert (len [] == 0) as E by reflexivity. rewrite E. lra. }
  assert (len (x :: l) == len l + 1) as E.
  { unfold len. simpl length. rewrite Nat2Z.inj_succ. unfold Z.succ. rewrite inject_Z_plus. reflexivity. }
  rewrite E. lra.
Qed.

Lemma total_centred l m : mean l = Ok m -> total (centred m l) == 0.
Proof.
  intros H. assert (l <> []) as Hne by (intros ->; unfold mean in H; simpl in H; discriminate).
  rewrite (mean_ok l Hne) in H. injection H as <-. unfold centred.
  pose proof (total_shift (- (py_sum l / len l)) l) as T.
  assert (total (map (fun x => x - py_sum l / len l) l)
          == total (map (fun x => x + - (py_sum l / len l)) l)) as -> by (apply total_ext; intros; ring).
  rewrite T, py_sum_total. pose proof (len_pos l Hne). field. lra.
Qed.

Lemma max_fold l : forall m0, let m := fold_left (fun m c => if Qlt_le_dec m (Qabs c) then Qabs c else m) l m0 in
  m0 <= m /\ (forall x, In x l -> Qabs x <= m) /\ (m = m0 \/ exists x, In x l /\ m = Qabs x).
Proof.
  induction l as [|c l IH]; intros m0; simpl; [split; [lra|]; split; [tauto|auto]|].
  destruct (Qlt_le_dec m0 (Qabs c)) as [H|H].
  - destruct (IH (Qabs c)) as (A & B & C). split; [lra|]. split.
    + intros x [->|Hx]; auto.
    + right. destruct C as [C|(x & Hx & C)]; [exists c|exists x]; auto.
  - destruct (IH m0) as (A & B & C). split; [auto|]. split.
    + intros x [->|Hx]; auto. lra.
    + destruct C as [C|(x & Hx & C)]; [left; auto|right; exists x; auto].
Qed.

Lemma l1_firstn a : forall b n, n = Nat.min (length a) (length b) -> l1 a b == l1 (firstn n a) (firstn n b).
Proof.
  induction a as [|x a IH]; intros [|y b] n ->; simpl; try reflexivity. rewrite (IH b _ eq_refl). reflexivity.
Qed.

Lemma sq_firstn a : forall b n, n = Nat.min (length a) (length b) -> sq a b == sq (firstn n a) (firstn n b).
Proof.
  induction a as [|x a IH]; intros [|y b] n ->; simpl; try reflexivity. rewrite (IH b _ eq_refl). reflexivity.
Qed.

Lemma len_cons x l : len (x :: l) == len l + 1.
Proof. unfold len. simpl length. rewrite Nat2Z.inj_succ. unfold Z.succ. rewrite inject_Z_plus. reflexivity. Qed.

Lemma dot_centred_expand mx my x : forall y, length x = length y ->
  dot (centred mx x) (centred my y) == dot x y - my * total x - mx * total y + len x * mx * my.
Proof.
  induction x as [|a x IH]; intros [|b y]; simpl; intros Hl; try discriminate.
  - assert (len [] == 0) as E by reflexivity. rewrite E. ring.
  - injection Hl as Hl. rewrite (IH y Hl), len_cons. ring.
Qed.

Lemma products_total x : forall y, total (map (fun ab => fst ab * snd ab) (combine x y)) == dot x y.
Proof. induction x as [|a x IH]; intros [|b y]; simpl; try reflexivity. rewrite IH. reflexivity. Qed.

Lemma covariance_expand x y : x <> [] -> length x = length y ->
  exists mx my mxy c, mean x = Ok mx /\ mean y = Ok my
    /\ mean (map (fun ab => fst ab * snd ab) (combine x y)) = Ok mxy
    /\ covariance x y = Ok c /\ c == mxy - mx * my.
Proof.
  intros Hne Hl.
  destruct (covariance_ok x y Hne Hl) as (mx & my & c & Ex & Ey & Ec & Ed).
  assert (y <> []) as Hny by (destruct x, y; simpl in *; congruence).
  assert (Hc : map (fun ab => fst ab * snd ab) (combine x y) <> []) by (destruct x, y; simpl in *; congruence).
  exists mx, my, (py_sum (map (fun ab => fst ab * snd ab) (combine x y)) / len x), c.
  repeat split; auto.
  - rewrite (mean_ok _ Hc). f_equal. f_equal. unfold len.
    rewrite map_length, combine_length, <- Hl, Nat.min_id. reflexivity.
  - rewrite Ed, dot_centred_expand, py_sum_total, products_total by auto.
    pose proof (len_pos x Hne) as Hp.
    assert (total x == mx * len x) as Tx.
    { rewrite (mean_ok x Hne) in Ex. injection Ex as <-. rewrite py_sum_total. field. lra. }
    assert (total y == my * len x) as Ty.
    { rewrite (mean_ok y Hny) in Ey. injection Ey as <-. unfold len in *. rewrite <- Hl.
      rewrite py_sum_total. field. lra. }
    rewrite Tx, Ty. field. lra.
Qed.

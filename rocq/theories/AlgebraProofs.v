(** Proofs about factor grids. *)
From Coq Require Import ZArith Znumtheory Lia Bool Permutation List.
From Verif Require Import Base AlgebraModel.
Import ListNotations.
Open Scope Z_scope.

Lemma round_even_bound n d : 0 < d -> - d <= 2 * (n - d * round_even n d) <= d.
Proof.
  intros Hd. unfold round_even. pose proof (Z.div_mod n d ltac:(lia)) as E.
  pose proof (Z.mod_pos_bound n d Hd) as B.
  destruct (Z.ltb_spec (2 * (n mod d)) d); [nia|].
  destruct (Z.ltb_spec d (2 * (n mod d))); [nia|].
  destruct (Z.even (n / d)); nia.
Qed.

Lemma round_even_exact q d : 0 < d -> round_even (d * q) d = q.
Proof.
  intros Hd. unfold round_even. rewrite (Z.mul_comm d q), Z.mod_mul, Z.div_mul by lia.
  destruct (Z.ltb_spec (2 * 0) d); lia.
Qed.

Lemma scaled_neg a b k : 0 <= k -> scaled a b (- k) = round_even (a * 2 ^ k) b.
Proof.
  intros Hk. unfold scaled. destruct (Z.leb_spec 0 (- k)) as [H|H].
  - assert (k = 0) as -> by lia. simpl. rewrite !Z.mul_1_r. auto.
  - rewrite Z.opp_involutive. auto.
Qed.

Lemma true_div_small a b : 0 < a < 2 ^ 53 -> 0 < b ->
  exists k, 0 <= k /\ true_div a b = {| mant := round_even (a * 2 ^ k) b; expo := - k |}
    /\ b * 2 ^ 52 <= a * 2 ^ k.
Proof.
  intros Ha Hb. unfold true_div.
  pose proof (Z.log2_spec a ltac:(lia)) as La. pose proof (Z.log2_spec b Hb) as Lb.
  pose proof (Z.log2_nonneg a) as Na. pose proof (Z.log2_nonneg b) as Nb.
  assert (Z.log2 a < 53) as Hla by (apply Z.log2_lt_pow2; lia).
  set (la := Z.log2 a) in *. set (lb := Z.log2 b) in *.
  set (e := la - lb - 53). assert (e < 0) by (unfold e; lia).
  destruct (Z.leb_spec 0 e); [lia|].
  set (k := - e).
  assert (Hk : k = 53 + lb - la) by (unfold k, e; lia).
  destruct (Z.leb_spec (b * 2 ^ 53) (a * 2 ^ k)) as [H1|H1].
  - exists (k - 1). split; [lia|]. split.
    + f_equal; [|lia]. replace (e + 1) with (- (k - 1)) by lia. apply scaled_neg. lia.
    + assert (2 ^ k = 2 * 2 ^ (k - 1)) as E.
      { rewrite <- (Z.pow_succ_r 2 (k - 1)) by lia. f_equal. lia. }
      rewrite E in H1. change (2 ^ 53) with (2 * 2 ^ 52) in H1. lia.
  - exists k. split; [lia|]. split.
    + f_equal; [|lia]. replace e with (- k) by lia. apply scaled_neg. lia.
    + (* a >= 2^la and b < 2^(lb+1) *)
      assert (2 ^ (lb + 1) * 2 ^ 52 = 2 ^ la * 2 ^ k) as E.
      { rewrite <- !Z.pow_add_r by lia. f_equal. lia. }
      assert (b * 2 ^ 52 <= 2 ^ (lb + 1) * 2 ^ 52) by (apply Z.mul_le_mono_nonneg_r; lia).
      assert (2 ^ la * 2 ^ k <= a * 2 ^ k).
      { apply Z.mul_le_mono_nonneg_r; [apply Z.pow_nonneg|]; lia. }
      lia.
Qed.

Lemma true_div_exact a b q : 0 < a < 2 ^ 53 -> 0 < b -> a = b * q ->
  is_integer (true_div a b) = true /\ to_int (true_div a b) = q.
Proof.
  intros Ha Hb E. destruct (true_div_small a b Ha Hb) as (k & Hk & -> & _).
  unfold is_integer, to_int. simpl.
  assert (round_even (a * 2 ^ k) b = q * 2 ^ k) as ->.
  { rewrite E. replace (b * q * 2 ^ k) with (b * (q * 2 ^ k)) by ring. apply round_even_exact. auto. }
  destruct (Z.leb_spec 0 (- k)) as [H|H].
  - assert (k = 0) as -> by lia. simpl. split; auto. lia.
  - rewrite Z.opp_involutive. assert (0 < 2 ^ k) by (apply Z.pow_pos_nonneg; lia).
    rewrite Z.mod_mul, Z.div_mul by lia. auto.
Qed.

Lemma true_div_inexact a b : 0 < a < 2 ^ 53 -> 0 < b -> is_integer (true_div a b) = true -> (b | a).
Proof.
  intros Ha Hb. destruct (true_div_small a b Ha Hb) as (k & Hk & -> & Hq).
  unfold is_integer. simpl. pose proof (round_even_bound (a * 2 ^ k) b Hb) as B.
  set (m := round_even (a * 2 ^ k) b) in *.
  assert (0 < 2 ^ k) as Hp by (apply Z.pow_pos_nonneg; lia).
  intros H. assert (exists z, m = z * 2 ^ k) as [z Hz].
  { destruct (Z.leb_spec 0 (- k)) as [H'|H'].
    - assert (k = 0) as -> by lia. exists m. simpl. lia.
    - simpl in H. rewrite Z.opp_involutive in H. apply Z.eqb_eq in H.
      exists (m / 2 ^ k). rewrite Z.mul_comm. apply Z_div_exact_full_2; lia. }
  exists z. destruct (Z.eq_dec (a - z * b) 0) as [|Hne]; [lia|]. exfalso.
  rewrite Hz in B.
  assert (2 * (a * 2 ^ k - b * (z * 2 ^ k)) = 2 * 2 ^ k * (a - z * b)) as E by ring.
  rewrite E in B.
  assert (2 * 2 ^ k <= b) as Hb'.
  { destruct (Z.lt_total (a - z * b) 0) as [L|[L|L]]; [|lia|].
    - assert (2 * 2 ^ k * (a - z * b) <= 2 * 2 ^ k * (-1)) by (apply Z.mul_le_mono_nonneg_l; lia). lia.
    - assert (2 * 2 ^ k * 1 <= 2 * 2 ^ k * (a - z * b)) by (apply Z.mul_le_mono_nonneg_l; lia). lia. }
  assert (2 * 2 ^ k * 2 ^ 52 <= a * 2 ^ k).
  { etransitivity; [|exact Hq]. apply Z.mul_le_mono_nonneg_r; lia. }
  assert (2 ^ 53 * 2 ^ k <= a * 2 ^ k) by (change (2 ^ 53) with (2 * 2 ^ 52); lia).
  apply Z.mul_le_mono_pos_r in H1; lia.
Qed.

Lemma FOP_impl {A} (P Q : A -> A -> Prop) l : (forall x y, P x y -> Q x y) ->
  ForallOrdPairs P l -> ForallOrdPairs Q l.
Proof.
  intros H F. induction F as [|a l Ha F IH]; constructor; auto.
  eapply Forall_impl; [|exact Ha]. auto.
Qed.

Section Spec.
Variable root : Z -> Z.
Variable as_list : list Z -> list Z.
Hypothesis root_ok : forall n, 0 < n -> Z.sqrt n <= root n.
Hypothesis as_list_ok : forall l, NoDup (as_list l) /\ forall x, In x (as_list l) <-> In x l.

Lemma in_range stop i : In i (range_1 stop) <-> 1 <= i < stop.
Proof.
  unfold range_1. rewrite in_map_iff. split.
  - intros (n & <- & H). apply in_seq in H. lia.
  - intros H. exists (Z.to_nat i). split; [lia|]. apply in_seq. lia.
Qed.

Lemma factors_spec n d : 0 < n -> (In d (factors root as_list n) <-> 0 < d /\ (d | n)).
Proof.
  intros Hn. unfold factors. rewrite (proj2 (as_list_ok _)), in_flat_map. split.
  - intros (i & Hi & Hd). apply in_range in Hi.
    destruct (Z.eqb_spec (n mod i) 0) as [E|]; [|destruct Hd].
    apply Z.mod_divide in E; [|lia]. destruct E as [q E].
    destruct Hd as [<-|[<-|[]]].
    + split; [lia|]. exists q. auto.
    + rewrite E, Z.div_mul by lia. split; [nia|]. exists i. lia.
  - intros [Hd [q E]]. pose proof (root_ok n Hn) as R.
    pose proof (Z.sqrt_spec n ltac:(lia)) as S. cbv zeta in S. pose proof (Z.sqrt_nonneg n) as S0.
    assert (0 < q) by nia.
    destruct (Z_le_gt_dec d (Z.sqrt n)) as [L|L].
    + exists d. split; [apply in_range; lia|].
      rewrite E, Z.mod_mul by lia. simpl. auto.
    + exists q. split.
      * apply in_range. assert (q <= Z.sqrt n); [|lia].
        destruct (Z_le_gt_dec q (Z.sqrt n)); auto. exfalso.
        assert (Z.succ (Z.sqrt n) * Z.succ (Z.sqrt n) <= q * d) by (apply Z.mul_le_mono_nonneg; lia). lia.
      * rewrite E, (Z.mul_comm q d), Z.mod_mul, Z.div_mul by lia. simpl. auto.
Qed.

Lemma factors_nodup n : NoDup (factors root as_list n).
Proof. apply as_list_ok. Qed.

Lemma number2_spec n : 0 < n < 2 ^ 53 -> exists grids, number2factor root as_list n = Ok grids
  /\ NoDup grids /\ forall x y, In (x, y) grids <-> 0 < x /\ 0 < y /\ x * y = n.
Proof.
  intros Hn. unfold number2factor. destruct (Z.ltb_spec n 0); [lia|].
  destruct (Z.eqb_spec n 0); [lia|]. simpl. eexists. split; [reflexivity|].
  assert (E : forall l, (forall d, In d l -> 0 < d /\ (d | n)) ->
    flat_map (fun factor_x => if is_integer (true_div n factor_x)
                              then [(factor_x, to_int (true_div n factor_x))] else []) l
    = map (fun d => (d, n / d)) l).
  { induction l as [|d l IH]; simpl; intros Hl; auto.
    destruct (Hl d (or_introl eq_refl)) as [Hd [q Hq]].
    destruct (true_div_exact n d q Hn Hd ltac:(lia)) as [-> ->]. simpl.
    replace (n / d) with q by (rewrite Hq, Z.div_mul; lia). rewrite IH; auto. }
  rewrite E by (intros d Hd; apply factors_spec in Hd; [auto|lia]).
  split.
  - apply FinFun.Injective_map_NoDup; [|apply factors_nodup]. intros x y [=]. auto.
  - intros x y. rewrite in_map_iff. split.
    + intros (d & [= <- <-] & Hd). apply factors_spec in Hd; [|lia]. destruct Hd as [Hd [q Hq]].
      rewrite Hq, Z.div_mul by lia. nia.
    + intros (Hx & Hy & Hxy). exists x. split.
      * f_equal. rewrite <- Hxy, Z.mul_comm, Z.div_mul; lia.
      * apply factors_spec; [lia|]. split; auto. exists y. lia.
Qed.

(** the grids kept by the two nested loops *)
Definition candidate n (xy : Z * Z) : list (Z * Z * Z) :=
  if is_integer (true_div n (fst xy * snd xy))
  then [(fst xy, snd xy, to_int (true_div n (fst xy * snd xy)))] else [].

Lemma candidate_spec n xy : 0 < n < 2 ^ 53 -> 0 < fst xy -> 0 < snd xy ->
  candidate n xy = if n mod (fst xy * snd xy) =? 0 then [(fst xy, snd xy, n / (fst xy * snd xy))] else [].
Proof.
  intros Hn Hx Hy. unfold candidate. assert (0 < fst xy * snd xy) as Hp by nia.
  destruct (Z.eqb_spec (n mod (fst xy * snd xy)) 0) as [E|E].
  - apply Z.mod_divide in E; [|lia]. destruct E as [q E].
    destruct (true_div_exact n _ q Hn Hp ltac:(lia)) as [-> ->].
    replace (n / (fst xy * snd xy)) with q by (rewrite E, Z.div_mul; lia). auto.
  - destruct (is_integer _) eqn:I; auto. apply true_div_inexact in I; auto.
    apply Z.mod_divide in I; [contradiction|lia].
Qed.

Lemma in_candidate n xy t : 0 < n < 2 ^ 53 -> 0 < fst xy -> 0 < snd xy ->
  (In t (candidate n xy) <-> exists z, t = (fst xy, snd xy, z) /\ fst xy * snd xy * z = n).
Proof.
  intros Hn Hx Hy. rewrite candidate_spec by auto. assert (0 < fst xy * snd xy) as Hp by nia.
  destruct (Z.eqb_spec (n mod (fst xy * snd xy)) 0) as [E|E].
  - apply Z.mod_divide in E; [|lia]. destruct E as [q E]. rewrite E, Z.div_mul by lia. simpl. split.
    + intros [<-|[]]. exists q. split; auto. lia.
    + intros (z & -> & Hz). left. f_equal. nia.
  - split; [intros []|]. intros (z & -> & Hz). exfalso. apply E.
    apply Z.mod_divide; [lia|]. exists z. lia.
Qed.

Lemma complete_in n x y z : 0 < n < 2 ^ 53 ->
  (In (x, y, z) (flat_map (candidate n) (list_prod (factors root as_list n) (factors root as_list n)))
   <-> 0 < x /\ 0 < y /\ 0 < z /\ x * y * z = n).
Proof.
  intros Hn. rewrite in_flat_map. split.
  - intros ([a b] & Hab & Hin). apply in_prod_iff in Hab. destruct Hab as [Ha Hb].
    apply factors_spec in Ha; [|lia]. apply factors_spec in Hb; [|lia].
    apply in_candidate in Hin; simpl in *; try tauto.
    destruct Hin as (z' & [= -> -> ->] & E). assert (0 < a * b) by nia. repeat split; try tauto. nia.
  - intros (Hx & Hy & Hz & E). exists (x, y). split.
    + apply in_prod_iff. split; apply factors_spec; try lia; split; auto; [exists (y * z)|exists (x * z)]; lia.
    + apply in_candidate; simpl; auto. exists z. auto.
Qed.

Lemma NoDup_app' {A} (l m : list A) : NoDup l -> NoDup m -> (forall x, In x l -> ~ In x m) -> NoDup (l ++ m).
Proof.
  induction 1 as [|x l Hx Hl IH]; simpl; intros Hm Hd; auto.
  constructor.
  - rewrite in_app_iff. intros [H|H]; [auto|]. apply (Hd x); simpl; auto.
  - apply IH; auto.
Qed.

Lemma NoDup_prod {A B} (l : list A) (m : list B) : NoDup l -> NoDup m -> NoDup (list_prod l m).
Proof.
  intros Hl Hm. induction Hl as [|x l Hx Hl IH]; simpl; [constructor|].
  apply NoDup_app'; auto.
  - apply FinFun.Injective_map_NoDup; auto. intros a b [=]. auto.
  - intros [a b] H H'. apply in_map_iff in H. destruct H as (c & [= <- <-] & _).
    apply in_prod_iff in H'. tauto.
Qed.

Lemma complete_nodup n : NoDup (flat_map (candidate n)
  (list_prod (factors root as_list n) (factors root as_list n))).
Proof.
  pose proof (NoDup_prod _ _ (factors_nodup n) (factors_nodup n)) as H.
  induction H as [|xy l Hx Hl IH]; simpl; [constructor|]. apply NoDup_app'; auto.
  - unfold candidate. destruct (is_integer _); repeat constructor; simpl; tauto.
  - intros t Ht Ht'. apply in_flat_map in Ht'. destruct Ht' as (xy' & Hin & Ht').
    unfold candidate in *. destruct (is_integer _); [|destruct Ht]. destruct Ht as [<-|[]].
    destruct (is_integer (true_div n (fst xy' * snd xy'))); [|destruct Ht'].
    destruct Ht' as [E|[]]. destruct xy as [a b], xy' as [a' b']. simpl in E. injection E as -> -> _. auto.
Qed.

(** ** One grid per set *)

Lemma set_eqb_iff a b : set_eqb a b = true <-> (forall x, In x a <-> In x b).
Proof.
  unfold set_eqb. rewrite andb_true_iff, !forallb_forall. split.
  - intros [H1 H2] x. split; intros H.
    + apply H1, existsb_exists in H. destruct H as (y & Hy & E). apply Z.eqb_eq in E. subst. auto.
    + apply H2, existsb_exists in H. destruct H as (y & Hy & E). apply Z.eqb_eq in E. subst. auto.
  - intros H. split; intros x Hx; apply existsb_exists; exists x; split; try apply Z.eqb_refl; apply H; auto.
Qed.

Definition keep (gs : list (Z * Z * Z) * list (list Z)) (t : Z * Z * Z) :=
  if existsb (set_eqb (triple_set t)) (snd gs) then gs else (fst gs ++ [t], snd gs ++ [triple_set t]).

Lemma incomplete_keep n fs : get_incomplete_factors n fs
  = fst (fold_left keep (flat_map (candidate n) (list_prod fs fs)) ([], [])).
Proof.
  unfold get_incomplete_factors. f_equal. generalize (@nil (Z * Z * Z), @nil (list Z)) as gs.
  induction (list_prod fs fs) as [|xy l IH]; intros gs; simpl; auto.
  rewrite fold_left_app. unfold candidate at 2.
  destruct (is_integer (true_div n (fst xy * snd xy))); simpl; apply IH.
Qed.

Definition same_set (t t' : Z * Z * Z) := forall x, In x (triple_set t) <-> In x (triple_set t').

Lemma keep_spec l : forall gs, snd gs = map triple_set (fst gs) ->
  let gs' := fold_left keep l gs in
  snd gs' = map triple_set (fst gs')
  /\ (forall t, In t (fst gs') -> In t (fst gs) \/ In t l)
  /\ (forall t, In t (fst gs) -> In t (fst gs'))
  /\ (forall t, In t l -> exists t', In t' (fst gs') /\ same_set t t')
  /\ (ForallOrdPairs (fun t t' => ~ same_set t t') (fst gs) ->
      ForallOrdPairs (fun t t' => ~ same_set t t') (fst gs')).
Proof.
  induction l as [|t l IH]; intros gs Hgs; simpl.
  - repeat split; auto. intros t [].
  - assert (K : exists gs1, keep gs t = gs1 /\ snd gs1 = map triple_set (fst gs1)
      /\ (forall u, In u (fst gs1) -> In u (fst gs) \/ u = t)
      /\ (forall u, In u (fst gs) -> In u (fst gs1))
      /\ (exists t', In t' (fst gs1) /\ same_set t t')
      /\ (ForallOrdPairs (fun t t' => ~ same_set t t') (fst gs) ->
          ForallOrdPairs (fun t t' => ~ same_set t t') (fst gs1))).
    { unfold keep. destruct (existsb _ _) eqn:E; eexists; (split; [reflexivity|]).
      - repeat split; auto. rewrite Hgs in E. apply existsb_exists in E. destruct E as (s & Hs & E).
        apply in_map_iff in Hs. destruct Hs as (t' & <- & Ht'). exists t'. split; auto.
        exact (proj1 (set_eqb_iff _ _) E).
      - simpl. repeat split.
        + rewrite Hgs, map_app. auto.
        + intros u Hu. apply in_app_iff in Hu. simpl in Hu. intuition.
        + intros u Hu. apply in_app_iff. auto.
        + exists t. split; [apply in_app_iff; simpl; auto|]. intros x. tauto.
        + intros F. rewrite Hgs in E.
          assert (N : forall u, In u (fst gs) -> ~ same_set u t).
          { intros u Hu S. assert (existsb (set_eqb (triple_set t)) (map triple_set (fst gs)) = true).
            { apply existsb_exists. exists (triple_set u). split; [apply in_map; auto|].
              apply set_eqb_iff. intros x. symmetry. apply S. }
            congruence. }
          clear - F N. induction F as [|u us Hu F IH]; simpl.
          * repeat constructor.
          * constructor.
            -- apply Forall_app. split; auto. repeat constructor. apply N. simpl; auto.
            -- apply IH. intros v Hv. apply N. simpl; auto. }
    destruct K as (gs1 & -> & K1 & K2 & K3 & (t' & Kt & Ks) & K5).
    destruct (IH gs1 K1) as (I1 & I2 & I3 & I4 & I5). repeat split; auto.
    + intros u Hu. apply I2 in Hu. destruct Hu as [Hu|Hu]; auto. apply K2 in Hu. destruct Hu; auto.
    + intros u [<-|Hu]; eauto.
Qed.

(** With the same product, three positive numbers with the same set of values are
    the same numbers in another order. *)
Lemma same_set_perm a b c a' b' c' : 0 < a -> 0 < b -> 0 < c -> 0 < a' -> 0 < b' -> 0 < c' ->
  a * b * c = a' * b' * c' -> same_set (a, b, c) (a', b', c') ->
  Permutation [a; b; c] [a'; b'; c'].
Proof.
  intros Ha Hb Hc Ha' Hb' Hc' E S. unfold same_set in S. simpl in S.
  pose proof (proj1 (S a) ltac:(auto)) as Da. pose proof (proj1 (S b) ltac:(auto)) as Db.
  pose proof (proj1 (S c) ltac:(auto)) as Dc. pose proof (proj2 (S a') ltac:(auto)) as Da'.
  pose proof (proj2 (S b') ltac:(auto)) as Db'. pose proof (proj2 (S c') ltac:(auto)) as Dc'.
  clear S.
  assert (P1 : forall x y z : Z, Permutation [x; y; z] [x; y; z]) by auto.
  assert (P2 : forall x y z : Z, Permutation [x; y; z] [x; z; y]) by (intros; repeat constructor).
  assert (P3 : forall x y z : Z, Permutation [x; y; z] [y; x; z]) by (intros; repeat constructor).
  assert (P4 : forall x y z : Z, Permutation [x; y; z] [y; z; x]) by (intros; eapply perm_trans; [apply P3|apply P2]).
  assert (P5 : forall x y z : Z, Permutation [x; y; z] [z; x; y]) by (intros; eapply perm_trans; [apply P2|apply P3]).
  assert (P6 : forall x y z : Z, Permutation [x; y; z] [z; y; x]) by (intros; eapply perm_trans; [apply P4|apply P3]).
  assert (Q1 : a = a' /\ b = b' /\ c = c' \/ a = a' /\ b = c' /\ c = b' \/ a = b' /\ b = a' /\ c = c'
     \/ a = b' /\ b = c' /\ c = a' \/ a = c' /\ b = a' /\ c = b' \/ a = c' /\ b = b' /\ c = a').
  { clear P1 P2 P3 P4 P5 P6.
    assert (a' * b' <> 0) as Nab by (clear - Ha' Hb'; nia).
    assert (a' * c' <> 0) as Nac by (clear - Ha' Hc'; nia).
    assert (b' * c' <> 0) as Nbc by (clear - Hc' Hb'; nia).
    destruct Da as [Da|[Da|[Da|[]]]], Db as [Db|[Db|[Db|[]]]], Dc as [Dc|[Dc|[Dc|[]]]]; subst a b c;
      try (clear; tauto); try (clear - Dc' Db' Da'; lia);
      first [ assert (c' = a') as H by (apply (Z.mul_reg_l _ _ (a' * b')); [auto|clear - E; lia])
        | assert (c' = b') as H by (apply (Z.mul_reg_l _ _ (a' * b')); [auto|clear - E; lia])
        | assert (b' = a') as H by (apply (Z.mul_reg_l _ _ (a' * c')); [auto|clear - E; lia])
        | assert (b' = c') as H by (apply (Z.mul_reg_l _ _ (a' * c')); [auto|clear - E; lia])
        | assert (a' = b') as H by (apply (Z.mul_reg_l _ _ (b' * c')); [auto|clear - E; lia])
        | assert (a' = c') as H by (apply (Z.mul_reg_l _ _ (b' * c')); [auto|clear - E; lia]) ];
      clear - H; lia. }
  destruct Q1 as [(-> & -> & ->)|[(-> & -> & ->)|[(-> & -> & ->)|[(-> & -> & ->)|[(-> & -> & ->)|(-> & -> & ->)]]]]]; auto.
Qed.

Lemma perm_same_set a b c a' b' c' : Permutation [a; b; c] [a'; b'; c'] -> same_set (a, b, c) (a', b', c').
Proof. intros P x. split; apply Permutation_in; auto. apply Permutation_sym. auto. Qed.

Lemma number3_complete n : 0 < n < 2 ^ 53 -> exists grids, number3factor root as_list n true = Ok grids
  /\ NoDup grids /\ forall x y z, In (x, y, z) grids <-> 0 < x /\ 0 < y /\ 0 < z /\ x * y * z = n.
Proof.
  intros Hn. unfold number3factor. destruct (Z.ltb_spec n 0); [lia|].
  destruct (Z.eqb_spec n 0); [lia|]. simpl negb. cbv iota. eexists. split; [reflexivity|].
  split; [apply complete_nodup|]. intros. apply complete_in. auto.
Qed.

Lemma number3_incomplete n : 0 < n < 2 ^ 53 -> exists grids, number3factor root as_list n false = Ok grids
  /\ (forall x y z, In (x, y, z) grids -> 0 < x /\ 0 < y /\ 0 < z /\ x * y * z = n)
  /\ (forall x y z, 0 < x -> 0 < y -> 0 < z -> x * y * z = n ->
        exists x' y' z', In (x', y', z') grids /\ Permutation [x; y; z] [x'; y'; z'])
  /\ ForallOrdPairs (fun t t' => let '(x, y, z) := t in let '(x', y', z') := t' in
                       ~ Permutation [x; y; z] [x'; y'; z']) grids.
Proof.
  intros Hn. unfold number3factor. destruct (Z.ltb_spec n 0); [lia|].
  destruct (Z.eqb_spec n 0); [lia|]. simpl negb. cbv iota. eexists. split; [reflexivity|].
  rewrite incomplete_keep.
  destruct (keep_spec (flat_map (candidate n) (list_prod (factors root as_list n) (factors root as_list n)))
              ([], []) eq_refl) as (_ & K2 & _ & K4 & K5).
  assert (In3 : forall x y z, In (x, y, z) (fst (fold_left keep (flat_map (candidate n)
      (list_prod (factors root as_list n) (factors root as_list n))) ([], []))) ->
      0 < x /\ 0 < y /\ 0 < z /\ x * y * z = n).
  { intros x y z Hin. apply K2 in Hin. destruct Hin as [[]|Hin]. apply complete_in in Hin; auto. }
  split; [exact In3|]. split.
  - intros x y z Hx Hy Hz E. destruct (K4 (x, y, z)) as ([[x' y'] z'] & Hin & S).
    { apply complete_in; auto. }
    exists x', y', z'. split; auto. apply In3 in Hin. destruct Hin as (? & ? & ? & E').
    apply same_set_perm; auto. congruence.
  - eapply FOP_impl; [|apply K5; constructor]. intros [[x y] z] [[x' y'] z'] N P.
    apply N, perm_same_set, P.
Qed.
End Spec.

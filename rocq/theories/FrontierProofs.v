(** Proofs on the borders of Pareto domains. *)
From Coq Require Import ZArith QArith Qabs Lqa Bool List Lia.
From Verif Require Import Base BaseProofs ParetoModel ParetoSpec ParetoProofs FrontierModel FrontierSpec.
Import ListNotations.
Open Scope nat_scope.

Lemma argmin_loop_spec : forall l i best index full, i = length full -> index < i -> nth index full 0%Q = best ->
  (forall x, In x full -> (best <= x)%Q) ->
  argmin_loop l i best index < length (full ++ l) /\
  forall x, In x (full ++ l) -> (nth (argmin_loop l i best index) (full ++ l) 0 <= x)%Q.
Proof.
  induction l as [|a l IH]; intros i best index full Hi Hx Hn Hb; cbn [argmin_loop].
  - rewrite app_nil_r. subst. split; [lia|]. auto.
  - replace (full ++ a :: l) with ((full ++ [a]) ++ l) by (rewrite <- app_assoc; reflexivity).
    destruct (Qle_bool best a) eqn:E; cbn [negb].
    + apply IH.
      * rewrite app_length; cbn; lia.
      * lia.
      * rewrite app_nth1 by lia. exact Hn.
      * intros x I. apply in_app_or in I. destruct I as [I|[<-|[]]]; [auto|]. apply Qle_bool_iff. exact E.
    + assert (L : (a < best)%Q).
      { apply Qnot_le_lt. intros K. apply Qle_bool_iff in K. congruence. }
      apply IH.
      * rewrite app_length; cbn; lia.
      * lia.
      * rewrite app_nth2 by lia. replace (i - length full) with 0 by lia. reflexivity.
      * intros x I. apply in_app_or in I. destruct I as [I|[<-|[]]]; [|apply Qle_refl]. specialize (Hb x I). lra.
Qed.
Lemma argmin_spec l i : argmin l = Ok i -> i < length l /\ forall x, In x l -> (nth i l 0 <= x)%Q.
Proof.
  destruct l as [|x l]; [discriminate|]. cbn [argmin]. intros H. injection H as <-.
  apply (argmin_loop_spec l 1 x 0 [x]); auto. intros y [<-|[]]. apply Qle_refl.
Qed.

Lemma min_loop : forall l x, let m := fold_left (fun a b => if Qle_bool a b then a else b) l x in
  In m (x :: l) /\ forall y, In y (x :: l) -> (m <= y)%Q.
Proof.
  induction l as [|a l IH]; intros x; cbn [fold_left].
  - split; [left; auto|]. intros y [<-|[]]. apply Qle_refl.
  - destruct (Qle_bool x a) eqn:E.
    + apply Qle_bool_iff in E. specialize (IH x). cbv zeta in *. destruct IH as [I J]. split.
      * destruct I as [I|I]; [left; auto|right; right; auto].
      * intros y [<-|[<-|K]]; [apply J; left; auto| |apply J; right; auto]. specialize (J x (or_introl eq_refl)). lra.
    + assert (L : (a < x)%Q).
      { apply Qnot_le_lt. intros K. apply Qle_bool_iff in K. congruence. }
      specialize (IH a). cbv zeta in *. destruct IH as [I J]. split; [right; auto|].
      intros y [<-|[<-|K]]; [|apply J; left; auto|apply J; right; auto]. specialize (J a (or_introl eq_refl)). lra.
Qed.
Lemma max_loop : forall l x, let m := fold_left (fun a b => if Qle_bool a b then b else a) l x in
  In m (x :: l) /\ forall y, In y (x :: l) -> (y <= m)%Q.
Proof.
  induction l as [|a l IH]; intros x; cbn [fold_left].
  - split; [left; auto|]. intros y [<-|[]]. apply Qle_refl.
  - destruct (Qle_bool x a) eqn:E.
    + apply Qle_bool_iff in E. specialize (IH a). cbv zeta in *. destruct IH as [I J]. split; [right; auto|].
      intros y [<-|[<-|K]]; [|apply J; left; auto|apply J; right; auto]. specialize (J a (or_introl eq_refl)). lra.
    + assert (L : (a < x)%Q).
      { apply Qnot_le_lt. intros K. apply Qle_bool_iff in K. congruence. }
      specialize (IH x). cbv zeta in *. destruct IH as [I J]. split.
      * destruct I as [I|I]; [left; auto|right; right; auto].
      * intros y [<-|[<-|K]]; [apply J; left; auto| |apply J; right; auto]. specialize (J x (or_introl eq_refl)). lra.
Qed.
Lemma minimum_least k data m : minimum (values k data) = Ok m -> least k data m.
Proof.
  destruct data as [|p data]; [discriminate|]. unfold values, minimum. cbn [map]. intros H. injection H as <-.
  destruct (min_loop (map (fun row => nth k row 0%Q) data) (nth k p 0%Q)) as [I J]. split.
  - change (nth k p 0%Q :: map (fun row => nth k row 0%Q) data) with (map (fun row => nth k row 0%Q) (p :: data)) in I.
    apply in_map_iff in I. destruct I as (q & E & K). exists q. split; [exact K|exact E].
  - intros q K. apply J. change (nth k p 0%Q :: map (fun row => nth k row 0%Q) data) with (map (fun row => nth k row 0%Q) (p :: data)).
    apply in_map_iff. exists q. auto.
Qed.
Lemma maximum_greatest k data m : maximum (values k data) = Ok m -> greatest k data m.
Proof.
  destruct data as [|p data]; [discriminate|]. unfold values, maximum. cbn [map]. intros H. injection H as <-.
  destruct (max_loop (map (fun row => nth k row 0%Q) data) (nth k p 0%Q)) as [I J]. split.
  - change (nth k p 0%Q :: map (fun row => nth k row 0%Q) data) with (map (fun row => nth k row 0%Q) (p :: data)) in I.
    apply in_map_iff in I. destruct I as (q & E & K). exists q. split; [exact K|exact E].
  - intros q K. apply J. change (nth k p 0%Q :: map (fun row => nth k row 0%Q) data) with (map (fun row => nth k row 0%Q) (p :: data)).
    apply in_map_iff. exists q. auto.
Qed.

(** ** One border *)

Definition slope (x y : nat) (p q : list Q) : Q := ((cost y p - cost y q) / (cost x p - cost x q))%Q.

Lemma map2_maps {A B C D} (f : B -> C -> D) (g : A -> B) (h : A -> C) l : map2 f (map g l) (map h l) = map (fun a => f (g a) (h a)) l.
Proof. induction l; cbn; congruence. Qed.
Lemma nth_values k i rows : i < length rows -> nth i (values k rows) 0%Q = cost k (nth i rows []).
Proof.
  intros L. unfold values. rewrite (nth_indep _ 0%Q (cost k [])) by (rewrite map_length; exact L).
  apply (map_nth (fun row => nth k row 0%Q)).
Qed.
Lemma nth_map_in {A B} (f : A -> B) l i d e : i < length l -> nth i (map f l) e = f (nth i l d).
Proof. intros L. rewrite (nth_indep _ e (f d)) by (rewrite map_length; exact L). apply map_nth. Qed.

Lemma maximum_ok l : l <> [] -> exists m, maximum l = Ok m.
Proof. destruct l; [congruence|]. intros _. eexists. reflexivity. Qed.
Lemma argmin_ok l : l <> [] -> exists m, argmin l = Ok m.
Proof. destruct l; [congruence|]. intros _. eexists. reflexivity. Qed.

Lemma frontier_spec x y rows mx sm : rows <> [] ->
  exists p, In p rows /\ (forall r, In r rows -> (cost y p <= cost y r)%Q) /\
  ((pareto_frontier_2d x y rows mx sm = Err ValueError /\ forall r, In r rows -> (cost x p == cost x r)%Q) \/
   exists q, In q rows /\ ~ (cost x p == cost x q)%Q /\
     pareto_frontier_2d x y rows mx sm
       = Ok ((cost x sm, (slope x y p q * cost x sm + (cost y p - slope x y p q * cost x p))%Q),
             (mx, (mx * slope x y p q + (cost y p - slope x y p q * cost x p))%Q)) /\
     forall r, In r rows -> ~ (cost x p == cost x r)%Q ->
       (Qabs (slope x y p q * cost x sm + (cost y p - slope x y p q * cost x p) - cost y sm)
        <= Qabs (slope x y p r * cost x sm + (cost y p - slope x y p r * cost x p) - cost y sm))%Q).
Proof.
  intros N. destruct (argmin_ok (values y rows)) as (i & Hi); [destruct rows; [congruence|discriminate]|].
  destruct (argmin_spec _ _ Hi) as [Li Ai]. unfold values in Li. rewrite map_length in Li.
  set (p := nth i rows []). exists p. split; [apply nth_In; exact Li|]. split.
  { intros r I. rewrite nth_values in Ai by exact Li. apply Ai. unfold values. apply in_map_iff. exists r. auto. }
  unfold pareto_frontier_2d. rewrite Hi. cbn [bind]. fold p. fold (cost x p) (cost y p).
  set (new := filter (fun row => negb (Qeq_bool (cost x p - nth x row 0) 0)%Q) rows).
  assert (Inew : forall r, In r new <-> In r rows /\ ~ (cost x p == cost x r)%Q).
  { intros r. unfold new. rewrite filter_In. split; intros [I J]; split; auto.
    - apply negb_true_iff in J. intros K. apply Qeq_bool_neq in J. apply J. unfold cost in *. lra.
    - apply negb_true_iff. destruct (Qeq_bool _ _) eqn:E; [|reflexivity]. apply Qeq_bool_iff in E. exfalso. apply J. unfold cost in *. lra. }
  destruct new as [|r0 new0] eqn:En.
  - left. split; [reflexivity|]. intros r I. destruct (Qeq_dec (cost x p) (cost x r)) as [E|E]; [exact E|].
    exfalso. apply (proj2 (Inew r)). auto.
  - right. rewrite <- En in *. assert (Nn : new <> []) by congruence.
    change (fun row : list Q => ((cost y p - nth y row 0) / (cost x p - nth x row 0))%Q) with (slope x y p).
    destruct (maximum_ok (map (slope x y p) new)) as (m & Hm).
    { destruct new; [congruence|discriminate]. }
    rewrite Hm. cbn [bind]. rewrite (map_map (slope x y p) (fun d => (cost y p - d * cost x p)%Q)). rewrite map2_maps.
    rewrite map_map. fold (cost x sm) (cost y sm).
    match goal with |- context [argmin ?l] => destruct (argmin_ok l) as (c & Hc); [destruct new; [congruence|discriminate]|] end.
    destruct (argmin_spec _ _ Hc) as [Lc Ac]. rewrite map_length in Lc. rewrite Hc. cbn [bind].
    set (q := nth c new []). assert (Iq : In q new) by (apply nth_In; exact Lc). apply Inew in Iq. destruct Iq as [Iq Dq].
    exists q. split; [exact Iq|]. split; [exact Dq|]. rewrite !(nth_map_in _ new c []) by exact Lc. fold q. split; [reflexivity|].
    intros r I D. rewrite (nth_map_in _ new c []) in Ac by exact Lc. fold q in Ac. apply Ac. apply in_map_iff. exists r.
    split; [reflexivity|]. apply Inew. auto.
Qed.

(** ** The points kept *)

Lemma covers_cost p q k : covers p q -> (cost k p <= cost k q)%Q.
Proof.
  intros C. revert k. induction C as [|a b p q L C IH]; intros k; unfold cost.
  - destruct k; apply Qle_refl.
  - destruct k as [|k]; [exact L|]. apply (IH k).
Qed.
Lemma combine_same {A} (l : list A) p : In p l -> In (p, p) (combine l l).
Proof. induction l as [|a l IH]; intros I; [destruct I|]. destruct I as [<-|I]; [left; auto|right; auto]. Qed.
Lemma combine_same_inv {A} (l : list A) p q : In (p, q) (combine l l) -> p = q /\ In p l.
Proof. induction l as [|a l IH]; cbn; intros I; [destruct I|]. destruct I as [E|I]; [injection E as <- <-; auto|]. destruct (IH I). auto. Qed.

Lemma kept_spec std data w : deviation std -> width w data ->
  (forall p, In p (compress data (exact_indexes std data)) -> best data p) /\
  (forall q, In q data -> exists p, In p (compress data (exact_indexes std data)) /\ covers p q).
Proof.
  intros D W. pose proof (pareto_front std D _ data data w eq_refl W) as (F1 & _ & F3).
  rewrite compress_combine in F1, F3 by reflexivity. split.
  - intros p I. destruct (F1 (p, p) (combine_same _ _ I)) as [J K]. split; [eapply compress_In; exact I|].
    intros q Iq. apply (K (q, q)). apply combine_same. exact Iq.
  - intros q I. destruct (F3 (q, q) (combine_same _ _ I)) as ((p & p') & J & C). apply combine_same_inv in J. destruct J as [<- J].
    exists p. auto.
Qed.

(** ** Pairs and least values *)
Lemma prod_loop : forall l' l, flat_map (fun x => flat_map (fun y => if x =? y then [] else [(x, y)]) l') l
  = filter (fun p => negb (fst p =? snd p)) (list_prod l l').
Proof.
  intros l' l. induction l as [|a l IH]; [reflexivity|]. cbn [flat_map list_prod]. rewrite filter_app, IH. f_equal. clear.
  induction l' as [|b l' IH]; [reflexivity|]. cbn. rewrite IH. destruct (a =? b); reflexivity.
Qed.
Lemma pairs_loop w : flat_map (fun x => flat_map (fun y => if x =? y then [] else [(x, y)]) (seq 0 w)) (seq 0 w) = pairs w.
Proof. apply prod_loop. Qed.
Lemma pairs_lt w x y : In (x, y) (pairs w) -> x < w /\ y < w /\ x <> y.
Proof.
  unfold pairs. rewrite filter_In. intros [I J]. apply in_prod_iff in I. destruct I as [I I']. apply in_seq in I, I'. cbn in J.
  apply negb_true_iff, Nat.eqb_neq in J. lia.
Qed.
Lemma mins_ok data : data <> [] -> forall l, exists sm, mapM (fun k => minimum (values k data)) l = Ok sm.
Proof.
  intros N. induction l as [|k l (sm & IH)]; cbn [mapM]; [eexists; reflexivity|].
  destruct data as [|p data]; [congruence|]. rewrite IH. cbn. eexists. reflexivity.
Qed.
Lemma mins_nth data : forall n s sm, mapM (fun k => minimum (values k data)) (seq s n) = Ok sm ->
  forall k, k < n -> least (s + k) data (cost k sm).
Proof.
  induction n as [|n IH]; intros s sm H k L; [lia|]. cbn [seq mapM] in H.
  destruct (minimum (values s data)) as [m|] eqn:E; [|discriminate]. cbn [bind] in H.
  destruct (mapM _ (seq (S s) n)) as [sm'|] eqn:E'; [|discriminate]. cbn [bind] in H. injection H as <-.
  destruct k as [|k].
  - rewrite Nat.add_0_r. cbn. apply minimum_least. exact E.
  - replace (s + S k) with (S s + k) by lia. apply (IH (S s) sm' E' k). lia.
Qed.

Lemma frontiers_eq std data w : data <> [] -> width w data -> exists sm,
  (forall k, k < w -> least k data (cost k sm)) /\
  pareto_frontiers std (length data) data
  = mapM (fun xy => let* max_x_dim := maximum (values (fst xy) data) in
                  pareto_frontier_2d (fst xy) (snd xy) (compress data (exact_indexes std data)) max_x_dim sm) (pairs w).
Proof.
  intros N W. destruct data as [|p data]; [congruence|].
  destruct (mins_ok (p :: data) N (seq 0 w)) as (sm & Hs). exists sm. split.
  - intros k L. apply (mins_nth _ w 0 sm Hs k L).
  - unfold pareto_frontiers, check_costs. rewrite Nat.eqb_refl. cbn [bind].
    assert (Lp : length p = w) by (inversion W; auto). rewrite Lp, Hs. cbn [bind]. rewrite pairs_loop. reflexivity.
Qed.

(** ** Geometry *)
Section Line.
Variables (x y : nat) (p q sm : list Q) (mx : Q).
Hypothesis D : ~ (cost x p == cost x q)%Q.
Let d := slope x y p q.
Let f : frontier := ((cost x sm, (d * cost x sm + (cost y p - d * cost x p))%Q), (mx, (mx * d + (cost y p - d * cost x p))%Q)).

Lemma slope_mult : (d * (cost x q - cost x p) == cost y q - cost y p)%Q.
Proof. unfold d, slope. field. intros K. apply D. lra. Qed.
Lemma height_line u v : (height f u v == (mx - cost x sm) * ((v - cost y p) - d * (u - cost x p)))%Q.
Proof. unfold height, f. cbn [fst snd]. ring. Qed.
Lemma on_p : on_line f (cost x p) (cost y p).
Proof. unfold on_line. rewrite height_line. ring. Qed.
Lemma on_q : on_line f (cost x q) (cost y q).
Proof. unfold on_line. rewrite height_line. rewrite slope_mult. ring. Qed.
Lemma above_line u v : (cost x sm <= mx)%Q -> (d * (u - cost x p) <= v - cost y p)%Q -> above f u v.
Proof. intros L H. unfold above. rewrite height_line. apply Qmult_le_0_compat; lra. Qed.
End Line.

(** the line of least slope goes below *)
Lemma least_slope x y p q r (m : Q) sy : ~ (cost x p == cost x q)%Q -> (m < cost x p)%Q -> (sy == cost y p)%Q -> (cost y p <= cost y r)%Q ->
  (~ (cost x p == cost x r)%Q ->
   (Qabs (slope x y p q * m + (cost y p - slope x y p q * cost x p) - sy)
    <= Qabs (slope x y p r * m + (cost y p - slope x y p r * cost x p) - sy))%Q) ->
  (slope x y p q * (cost x r - cost x p) <= cost y r - cost y p)%Q.
Proof.
  intros Dq L S Y H. destruct (Qeq_dec (cost x p) (cost x r)) as [E|E].
  - rewrite <- E. setoid_replace (cost x p - cost x p)%Q with 0%Q by ring. lra.
  - specialize (H E). pose proof (slope_mult x y p r E) as M.
    set (a := slope x y p q) in *. set (b := slope x y p r) in *.
    setoid_replace (a * m + (cost y p - a * cost x p) - sy)%Q with (a * (m - cost x p))%Q in H by (rewrite S; ring).
    setoid_replace (b * m + (cost y p - b * cost x p) - sy)%Q with (b * (m - cost x p))%Q in H by (rewrite S; ring).
    rewrite !Qabs_Qmult in H.
    assert (P : (0 < Qabs (m - cost x p))%Q).
    { rewrite Qabs_neg by lra. lra. }
    apply Qmult_le_r in H; [|exact P].
    eapply Qle_trans; [apply Qle_Qabs|]. rewrite Qabs_Qmult.
    eapply Qle_trans; [apply Qmult_le_compat_r; [exact H|apply Qabs_nonneg]|].
    rewrite <- Qabs_Qmult, M. rewrite Qabs_pos by lra. apply Qle_refl.
Qed.

(** what a border is made of *)
Lemma border std data w x y f sm mx : deviation std -> width w data -> data <> [] -> x < w -> y < w ->
  (forall k, k < w -> least k data (cost k sm)) -> maximum (values x data) = Ok mx ->
  pareto_frontier_2d x y (compress data (exact_indexes std data)) mx sm = Ok f ->
  exists p q, best data p /\ best data q /\ (cost y sm == cost y p)%Q /\ least y data (cost y p) /\ ~ (cost x p == cost x q)%Q /\
    (cost x sm < mx)%Q /\ f = ((cost x sm, (slope x y p q * cost x sm + (cost y p - slope x y p q * cost x p))%Q),
         (mx, (mx * slope x y p q + (cost y p - slope x y p q * cost x p))%Q)) /\
    ((cost x sm < cost x p)%Q -> forall r, In r (compress data (exact_indexes std data)) ->
       (slope x y p q * (cost x r - cost x p) <= cost y r - cost y p)%Q).
Proof.
  intros D W N Lx Ly S M F. destruct (kept_spec std data w D W) as [K1 K2].
  set (kept := compress data (exact_indexes std data)) in *.
  assert (Nk : kept <> []).
  { destruct data as [|r data]; [congruence|]. destruct (K2 r (or_introl eq_refl)) as (p & I & _). destruct kept; [destruct I|discriminate]. }
  destruct (frontier_spec x y kept mx sm Nk) as (p & Ip & Hp & [(E & _)|(q & Iq & Dq & E & H)]); [congruence|].
  rewrite F in E. injection E as ->. exists p, q.
  assert (Lp : forall r, In r data -> (cost y p <= cost y r)%Q).
  { intros r I. destruct (K2 r I) as (s & Is & C). apply (covers_cost _ _ y) in C. specialize (Hp s Is). lra. }
  assert (Ep : (cost y sm == cost y p)%Q).
  { destruct (S y Ly) as [(r & I & E) J]. specialize (Lp r I). specialize (J p (proj1 (K1 p Ip))). rewrite <- E in *. lra. }
  split; [auto|]. split; [auto|]. split; [auto|]. split; [split; [exists p; split; [apply K1; auto|reflexivity]|auto]|]. split; [auto|]. split.
  { pose proof (maximum_greatest _ _ _ M) as [_ G]. destruct (S x Lx) as [_ J].
    pose proof (G p (proj1 (K1 p Ip))). pose proof (G q (proj1 (K1 q Iq))).
    pose proof (J p (proj1 (K1 p Ip))). pose proof (J q (proj1 (K1 q Iq))).
    destruct (Q_dec (cost x p) (cost x q)) as [[A|A]|A]; [lra|lra|contradiction]. }
  split; [reflexivity|]. intros L r I. apply (least_slope x y p q r (cost x sm) (cost y sm)); auto.
Qed.

(** ** Costs given in columns *)
Lemma transpose_length : forall n cols, length (transpose Q 0%Q n cols) = n.
Proof. induction n as [|n IH]; intros cols; cbn; [reflexivity|]. rewrite IH. reflexivity. Qed.
Lemma transpose_nth : forall n cols i, i < n -> nth i (transpose Q 0%Q n cols) [] = map (fun c => nth i c 0%Q) cols.
Proof.
  induction n as [|n IH]; intros cols i L; [lia|]. cbn [transpose]. destruct i as [|i]; cbn [nth].
  - apply map_ext. intros [|]; reflexivity.
  - rewrite IH by lia. rewrite map_map. apply map_ext. intros [|]; [destruct i|]; reflexivity.
Qed.
Lemma min_lengths : forall (cols : list (list Q)) n, (forall c, In c cols -> length c = n) ->
  fold_right (fun r m => Nat.min (length r) m) n cols = n.
Proof. induction cols as [|c cols IH]; intros n H; cbn; [reflexivity|]. rewrite IH by (intros; apply H; right; auto). rewrite (H c (or_introl eq_refl)). lia. Qed.
Lemma transposed w data cols : width w data -> columns w data cols -> transpose Q 0%Q (length data) cols = data.
Proof.
  intros W (L & Lc & E). apply (nth_ext _ _ [] []); [apply transpose_length|]. rewrite transpose_length. intros i Hi.
  rewrite transpose_nth by exact Hi.
  assert (Lr : length (nth i data []) = w).
  { apply (proj1 (Forall_forall _ _) W). apply nth_In. exact Hi. }
  apply (nth_ext _ _ 0%Q 0%Q); [rewrite map_length; congruence|]. rewrite map_length. intros j Hj.
  rewrite (nth_map_in _ cols j []) by exact Hj. apply E; [exact Hi|lia].
Qed.

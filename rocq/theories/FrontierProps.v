(** C85: the borders of Pareto domains. *)
From Coq Require Import ZArith QArith Qabs Lqa Bool List Lia.
From Verif Require Import Base BaseProofs ParetoModel ParetoSpec ParetoProofs ParetoProps FrontierModel FrontierSpec FrontierProofs.
Import ListNotations.
Open Scope nat_scope.

Lemma frontiers_inv std data w fs : deviation std -> width w data -> data <> [] -> pareto_frontiers std (length data) data = Ok fs ->
  exists sm, (forall k, k < w -> least k data (cost k sm)) /\
  Forall2 (fun xy f => (fst xy < w /\ snd xy < w /\ fst xy <> snd xy) /\ exists mx, maximum (values (fst xy) data) = Ok mx /\
    pareto_frontier_2d (fst xy) (snd xy) (compress data (exact_indexes std data)) mx sm = Ok f) (pairs w) fs.
Proof.
  intros D W N H. destruct (frontiers_eq std data w N W) as (sm & S & E). exists sm. split; [exact S|]. rewrite E in H. clear E.
  apply mapM_ok_inv in H.
  assert (P : forall xy, In xy (pairs w) -> fst xy < w /\ snd xy < w /\ fst xy <> snd xy).
  { intros [x y] I. apply (pairs_lt w x y I). }
  revert P. induction H as [|xy f l fs F _ IH]; intros P; constructor.
  - split; [apply P; left; auto|]. destruct (maximum _) as [mx|]; [|discriminate]. exists mx. auto.
  - apply IH. intros; apply P; right; auto.
Qed.

Lemma Forall2_imp {A B} (P Q : A -> B -> Prop) l m : (forall a b, P a b -> Q a b) -> Forall2 P l m -> Forall2 Q l m.
Proof. intros H F. induction F; constructor; auto. Qed.

(** There is a border for each pair of costs, in the order of pairs.  It goes from the least to the greatest value of
    the first cost, and through two of the best points, one of them the best for the second cost. *)
Theorem C85_joins : forall std data w fs, deviation std -> width w data -> data <> [] ->
  pareto_frontiers std (length data) data = Ok fs -> Forall2 (joins data) (pairs w) fs.
Proof.
  intros std data w fs D W N H. destruct (frontiers_inv std data w fs D W N H) as (sm & S & F).
  eapply Forall2_imp; [|exact F]. intros [x y] f ((Lx & Ly & _) & mx & M & E). cbn [fst snd] in *.
  destruct (border std data w x y f sm mx D W N Lx Ly S M E) as (p & q & Bp & Bq & _ & Lp & Dq & L & -> & _).
  cbn [joins fst snd]. split; [apply S; exact Lx|]. split; [apply maximum_greatest; exact M|]. split; [exact L|].
  exists p, q. split; [exact Bp|]. split; [exact Bq|]. split; [exact Lp|]. split; [exact Dq|]. split; [apply on_p|apply on_q; exact Dq].
Qed.

(** The best points are above the borders of the costs for which no point is the best twice. *)
Theorem C85_best_above : forall std data w fs, deviation std -> width w data -> data <> [] ->
  pareto_frontiers std (length data) data = Ok fs ->
  Forall2 (fun xy f => let (x, y) := (xy : nat * nat) in
    (forall p, In p data -> ~ (least x data (cost x p) /\ least y data (cost y p))) ->
    forall r, best data r -> above f (cost x r) (cost y r)) (pairs w) fs.
Proof.
  intros std data w fs D W N H. destruct (frontiers_inv std data w fs D W N H) as (sm & S & F).
  eapply Forall2_imp; [|exact F]. intros [x y] f ((Lx & Ly & _) & mx & M & E). cbn [fst snd] in *. intros T r [Ir Br].
  destruct (border std data w x y f sm mx D W N Lx Ly S M E) as (p & q & Bp & Bq & _ & Lp & Dq & L & -> & G).
  assert (Lt : (cost x sm < cost x p)%Q).
  { apply Qnot_le_lt. intros K. apply (T p (proj1 Bp)). split; [|exact Lp]. split; [exists p; split; [apply Bp|reflexivity]|].
    intros s Is. destruct (S x Lx) as [_ J]. specialize (J s Is). lra. }
  specialize (G Lt). destruct (kept_spec std data w D W) as [K1 K2]. destruct (K2 r Ir) as (s & Is & C).
  assert (C' : covers r s).
  { destruct (covers_dec r s) as [C'|C']; [exact C'|]. exfalso. apply (Br s (proj1 (K1 s Is))). apply dominates_covers. auto. }
  specialize (G s Is). apply above_line; [lra|].
  pose proof (covers_cost _ _ x C). pose proof (covers_cost _ _ x C'). pose proof (covers_cost _ _ y C). pose proof (covers_cost _ _ y C').
  assert (X : (cost x r == cost x s)%Q) by lra. assert (Y : (cost y r == cost y s)%Q) by lra. rewrite X, Y. exact G.
Qed.

Lemma two_costs p q x y : length p = 2 -> length q = 2 -> x < 2 -> y < 2 -> x <> y ->
  (cost x p <= cost x q)%Q -> (cost y p <= cost y q)%Q -> covers p q.
Proof.
  intros Lp Lq. destruct p as [|a [|b [|]]], q as [|c [|e [|]]]; try discriminate. intros X Y D.
  assert (K : (x = 0 /\ y = 1) \/ (x = 1 /\ y = 0)) by lia. destruct K as [[-> ->]|[-> ->]]; cbn; intros; repeat constructor; assumption.
Qed.

(** With two costs, each point is above both borders. *)
Theorem C85_above : forall std data fs, deviation std -> width 2 data -> data <> [] ->
  pareto_frontiers std (length data) data = Ok fs ->
  exists f g, fs = [f; g] /\ forall r, In r data -> above f (cost 0 r) (cost 1 r) /\ above g (cost 1 r) (cost 0 r).
Proof.
  intros std data fs D W N H. destruct (frontiers_inv std data 2 fs D W N H) as (sm & S & F).
  assert (A : forall x y f mx, x < 2 -> y < 2 -> x <> y -> maximum (values x data) = Ok mx ->
    pareto_frontier_2d x y (compress data (exact_indexes std data)) mx sm = Ok f -> forall r, In r data -> above f (cost x r) (cost y r)).
  { intros x y f mx Lx Ly Nxy M E r Ir.
    destruct (border std data 2 x y f sm mx D W N Lx Ly S M E) as (p & q & Bp & Bq & _ & Lp & Dq & L & -> & G).
    pose proof (proj1 (Forall_forall _ _) W) as Wl. cbv beta in Wl.
    assert (Q : (cost x q < cost x p)%Q).
    { apply Qnot_le_lt. intros K. destruct Bq as [Iq Bq]. apply (Bq p (proj1 Bp)). apply dominates_covers.
      assert (C : covers p q).
      { apply (two_costs p q x y); auto; [apply Wl, Bp|apply Lp; exact Iq]. }
      split; [exact C|]. intros C'. apply Dq. apply (covers_cost _ _ x) in C. apply (covers_cost _ _ x) in C'. lra. }
    assert (Lt : (cost x sm < cost x p)%Q).
    { destruct (S x Lx) as [_ J]. specialize (J q (proj1 Bq)). lra. }
    specialize (G Lt). destruct (kept_spec std data 2 D W) as [K1 K2]. destruct (K2 r Ir) as (s & Is & C). specialize (G s Is).
    apply above_line; [lra|]. pose proof (covers_cost _ _ x C) as Cx. pose proof (covers_cost _ _ y C) as Cy.
    pose proof (slope_mult x y p q Dq) as SM. pose proof (proj2 Lp q (proj1 Bq)) as Yq.
    set (d := slope x y p q) in *. assert (Dn : (d <= 0)%Q) by nra. nra. }
  cbn in F. inversion F as [|? f ? ? (_ & m1 & M1 & E1) F' ]; subst. inversion F' as [|? g ? ? (_ & m2 & M2 & E2) F'']; subst.
  inversion F''; subst. exists f, g. split; [reflexivity|]. intros r I. cbn [fst snd] in *. split.
  - apply (A 0 1 f m1); auto.
  - apply (A 1 0 g m2); auto.
Qed.

Lemma values_max k data : data <> [] -> exists m, maximum (values k data) = Ok m.
Proof. intros N. apply maximum_ok. destruct data; [congruence|discriminate]. Qed.
Lemma pairs_first w : 2 <= w -> exists l, pairs w = (0, 1) :: l.
Proof. destruct w as [|[|w]]; [lia|lia|]. intros _. unfold pairs. cbn. eexists. reflexivity. Qed.

(** When a point is the best for all costs, there is no border, but an error. *)
Theorem C85_winner_refuted : forall std data w p, deviation std -> width w data -> 2 <= w -> winner data p ->
  pareto_frontiers std (length data) data = Err ValueError.
Proof.
  intros std data w p D W L [Ip Hp]. assert (N : data <> []) by (destruct data; [destruct Ip|discriminate]).
  destruct (frontiers_eq std data w N W) as (sm & S & E). rewrite E. clear E. destruct (pairs_first w L) as (l & ->).
  cbn [mapM fst snd]. destruct (values_max 0 data N) as (mx & ->). cbn [bind].
  destruct (kept_spec std data w D W) as [K1 K2]. set (kept := compress data (exact_indexes std data)) in *.
  assert (Nk : kept <> []).
  { destruct (K2 p Ip) as (r & I & _). destruct kept; [destruct I|discriminate]. }
  assert (X : forall r, In r kept -> (cost 0 r == cost 0 p)%Q).
  { intros r I. destruct (K1 r I) as [Ir Br]. pose proof (Hp r Ir) as C. destruct (covers_dec r p) as [C'|C'].
    - apply (covers_cost _ _ 0) in C. apply (covers_cost _ _ 0) in C'. lra.
    - exfalso. apply (Br p Ip). apply dominates_covers. auto. }
  destruct (frontier_spec 0 1 kept mx sm Nk) as (s & Is & _ & [(-> & _)|(q & Iq & Dq & _)]); [reflexivity|].
  exfalso. apply Dq. rewrite (X s Is), (X q Iq). reflexivity.
Qed.

(** With two costs, this is the only error. *)
Theorem C85_errors : forall std data, deviation std -> width 2 data -> data <> [] ->
  (exists fs, pareto_frontiers std (length data) data = Ok fs) \/
  (pareto_frontiers std (length data) data = Err ValueError /\ exists p, winner data p).
Proof.
  intros std data D W N. destruct (frontiers_eq std data 2 N W) as (sm & S & E). rewrite E. clear E.
  destruct (kept_spec std data 2 D W) as [K1 K2]. set (kept := compress data (exact_indexes std data)) in *.
  assert (Nk : kept <> []).
  { destruct data as [|r data]; [congruence|]. destruct (K2 r (or_introl eq_refl)) as (p & I & _). destruct kept; [destruct I|discriminate]. }
  pose proof (proj1 (Forall_forall _ _) W) as Wl. cbv beta in Wl.
  assert (A : forall x y mx, x < 2 -> y < 2 -> x <> y -> (exists f, pareto_frontier_2d x y kept mx sm = Ok f) \/
    (pareto_frontier_2d x y kept mx sm = Err ValueError /\ exists p, winner data p)).
  { intros x y mx Lx Ly Nxy. destruct (frontier_spec x y kept mx sm Nk) as (p & Ip & Hp & [(E & X)|(q & _ & _ & -> & _)]); [|left; eauto].
    right. split; [exact E|]. exists p. split; [apply K1; exact Ip|]. intros r Ir. destruct (K2 r Ir) as (s & Is & C).
    apply covers_trans with s; [|exact C]. destruct (K1 s Is) as [Is' _]. destruct (K1 p Ip) as [Ip' _].
    apply (two_costs p s x y); auto. rewrite (X s Is). apply Qle_refl. }
  cbn [pairs seq list_prod map app filter fst snd negb Nat.eqb mapM].
  destruct (values_max 0 data N) as (m0 & ->). destruct (values_max 1 data N) as (m1 & ->). cbn [bind].
  destruct (A 0 1 m0 ltac:(lia) ltac:(lia) ltac:(lia)) as [(f & ->)|(-> & B)]; [|right; split; [reflexivity|exact B]]. cbn [bind].
  destruct (A 1 0 m1 ltac:(lia) ltac:(lia) ltac:(lia)) as [(g & ->)|(-> & B)]; [|right; split; [reflexivity|exact B]]. left. eexists. reflexivity.
Qed.

(** With more costs, points may be below a border. *)
Definition three : list (list Q) := [[1; 0; 5]; [2; 1; 0]; [0; 3; 3]; [10; 1; 5]]%Q.
Theorem C85_below_refuted : ~ (forall std data w fs, deviation std -> width w data -> data <> [] ->
  pareto_frontiers std (length data) data = Ok fs ->
  Forall2 (fun xy f => forall r, In r data -> above f (cost (fst xy) r) (cost (snd xy) r)) (pairs w) fs).
Proof.
  intros H.
  assert (E : exists fs, pareto_frontiers spread (length three) three = Ok fs) by (vm_compute; eexists; reflexivity).
  destruct E as (fs & E). specialize (H spread three 3 fs spread_deviation).
  assert (W : width 3 three) by (repeat constructor). specialize (H W ltac:(discriminate) E). vm_compute in E. injection E as <-.
  inversion H as [|? ? ? ? K _]; subst. specialize (K [10; 1; 5]%Q). apply K; [cbn; auto|reflexivity].
Qed.

(** Costs may be given in columns. *)
Theorem C85_columns : forall std data w cols, width w data -> columns w data cols -> data <> [] -> 0 < w -> w <> length data ->
  pareto_frontiers std (length data) cols = pareto_frontiers std (length data) data.
Proof.
  intros std data w cols W C N P D. unfold pareto_frontiers.
  replace (check_costs Q 0%Q (length data) cols) with (check_costs Q 0%Q (length data) data); [reflexivity|].
  unfold check_costs. rewrite Nat.eqb_refl. pose proof (transposed w data cols W C) as T. destruct C as (L & Lc & _).
  rewrite L. apply Nat.eqb_neq in D. rewrite D. destruct cols as [|c cols]; [cbn in L; lia|].
  pose proof (Lc c (or_introl eq_refl)) as L0. rewrite L0, Nat.eqb_refl. rewrite min_lengths by exact Lc. rewrite T. reflexivity.
Qed.

(** But not of as many points as costs. *)
Theorem C85_square_refuted : ~ (forall std data w cols, deviation std -> width w data -> columns w data cols -> data <> [] -> 0 < w ->
  pareto_frontiers std (length data) cols = pareto_frontiers std (length data) data).
Proof.
  intros H. specialize (H spread [[1; 4]; [2; 3]]%Q 2 [[1; 2]; [4; 3]]%Q spread_deviation).
  assert (W : width 2 [[1; 4]; [2; 3]]%Q) by (repeat constructor).
  assert (C : columns 2 [[1; 4]; [2; 3]]%Q [[1; 2]; [4; 3]]%Q).
  { split; [reflexivity|]. split; [intros c [<-|[<-|[]]]; reflexivity|]. intros [|[|i]] [|[|j]] I J; try reflexivity; cbn in I; lia. }
  specialize (H W C ltac:(discriminate) ltac:(lia)). vm_compute in H. discriminate.
Qed.

(** Costs of another size, and of no point. *)
Theorem C85_sizes : forall std n costs, length costs <> n ->
  match costs with
  | [] => pareto_frontiers std n costs = Err IndexError
  | c :: _ => length c <> n -> pareto_frontiers std n costs = Err ValueError
  end /\ pareto_frontiers std 0 [] = Err ValueError.
Proof.
  intros std n costs N. split; [|reflexivity]. apply Nat.eqb_neq in N. unfold pareto_frontiers, check_costs. rewrite N.
  destruct costs as [|c costs]; [reflexivity|]. intros M. apply Nat.eqb_neq in M. rewrite M. reflexivity.
Qed.

Print Assumptions C85_joins.
Print Assumptions C85_best_above.
Print Assumptions C85_above.
Print Assumptions C85_winner_refuted.
Print Assumptions C85_errors.
Print Assumptions C85_below_refuted.
Print Assumptions C85_columns.
Print Assumptions C85_square_refuted.
Print Assumptions C85_sizes.

(** ** Examples *)
Definition reduced (f : frontier) : frontier :=
  ((Qred (fst (fst f)), Qred (snd (fst f))), (Qred (fst (snd f)), Qred (snd (snd f)))).
(** weight and price of cars: (3, 1), (2, 2) and (1, 4) are the best ones *)
Example C85_joins_ex : (let* fs := pareto_frontiers spread 5 ex_costs in Ok (map reduced fs))
  = Ok [((1, 3), (3, 1)); ((1, 5 # 2), (4, 1))]%Q.
Proof. vm_compute. reflexivity. Qed.
Example C85_above_ex : exists f g, pareto_frontiers spread 5 ex_costs = Ok [f; g] /\
  forall r, In r ex_costs -> above f (cost 0 r) (cost 1 r) /\ above g (cost 1 r) (cost 0 r).
Proof.
  destruct (pareto_frontiers spread 5 ex_costs) as [fs|] eqn:E; [|vm_compute in E; discriminate].
  destruct (C85_above spread ex_costs fs spread_deviation) as (f & g & -> & A); [repeat constructor|discriminate|exact E|]. eauto.
Qed.
Example C85_winner_ex : pareto_frontiers spread 3 [[3; 1]; [2; 0]; [5; 7]]%Q = Err ValueError.
Proof.
  apply (C85_winner_refuted spread [[3; 1]; [2; 0]; [5; 7]]%Q 2 [2; 0]%Q spread_deviation); [repeat constructor|auto|].
  split; [cbn; auto|]. intros q [<-|[<-|[<-|[]]]]; repeat constructor; discriminate.
Qed.
Example C85_columns_ex : pareto_frontiers spread 5 [[3; 2; 3; 2; 1]; [1; 2; 3; 2; 4]]%Q = pareto_frontiers spread 5 ex_costs.
Proof. vm_compute. reflexivity. Qed.
Example C85_sizes_ex : pareto_frontiers spread 4 ex_costs = Err ValueError /\ pareto_frontiers spread 4 [] = Err IndexError.
Proof. split; reflexivity. Qed.

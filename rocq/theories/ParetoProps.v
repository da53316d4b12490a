(** C32, C33: Pareto fronts and sheets. *)
From Coq Require Import ZArith QArith Bool Lia Permutation SpecFloat List.
From Verif Require Import Base ParetoModel ParetoSpec ParetoProofs.
Import ListNotations.
Open Scope nat_scope.

(** The points returned are a front: no point dominates one of them, no two of them can be
    compared, and each point is covered by one of them.  They come in the order of the dataset. *)
Theorem C32_front : forall A (std : list cell -> cell) (objects : list A) costs w,
  deviation std -> length objects = length costs -> width w costs ->
  exists kept, exact_points std objects costs = map fst kept
            /\ subsequence kept (combine objects costs)
            /\ front (combine objects costs) kept.
Proof.
  intros A std objects costs w D L W.
  assert (length costs = length (exact_indexes std costs)) as Hl
    by (destruct (pareto_mask std D costs w W) as [-> _]; reflexivity).
  exists (compress (combine objects costs) (exact_indexes std costs)); split; [|split].
  - unfold exact_points, pareto_points; fold (exact_indexes std costs).
    rewrite compress_combine by exact L; symmetry; apply map_fst_combine, compress_length; exact L.
  - apply compress_subsequence; rewrite combine_length, <- Hl, L; apply Nat.min_id.
  - eapply pareto_front; eassumption.
Qed.

(** Exactly which points are marked: those that no point dominates, the first one among those
    of equal costs. *)
Theorem C32_marked : forall (std : list cell -> cell) costs w, deviation std -> width w costs ->
  length (exact_indexes std costs) = length costs /\
  forall j p, nth_error costs j = Some p ->
    (nth j (exact_indexes std costs) false = true
     <-> (forall q, In q costs -> ~ dominates q p)
         /\ (forall k q, nth_error costs k = Some q -> covers q p -> covers p q -> j <= k)).
Proof.
  intros std costs w D W; destruct (pareto_mask std D costs w W) as [Hl Hm]; split; [exact Hl|].
  intros j p Hj.
  assert (j < length costs) as Lj by (apply nth_error_Some; congruence).
  rewrite (Hm j Lj), (nth_error_nth _ _ [] Hj); split.
  - intros M; split.
    + intros q I Dq; apply In_nth_error in I as (k & Hk); apply dominates_covers in Dq as [C N].
      apply N; rewrite <- (nth_error_nth _ _ [] Hk) in *; apply M; [apply nth_error_Some; congruence|exact C].
    + intros k q Hk C _; rewrite <- (nth_error_nth _ _ [] Hk) in C; apply (M k); [apply nth_error_Some; congruence|exact C].
  - intros [M1 M2] k Hk C.
    assert (nth_error costs k = Some (nth k costs [])) as Hk' by (apply nth_error_nth'; exact Hk).
    destruct (covers_dec p (nth k costs [])) as [E|E].
    + split; [exact E|eapply M2; eassumption].
    + exfalso; apply (M1 (nth k costs [])); [apply nth_In; exact Hk|apply dominates_covers; split; assumption].
Qed.

(** Standardising does not change the answer. *)
Theorem C32_standardising : forall (std : list cell -> cell) costs w, deviation std -> width w costs ->
  exact_indexes std costs = raw_indexes costs.
Proof.
  intros std costs w D W.
  destruct (pareto_mask std D costs w W) as [Hl Hm]; destruct (raw_mask costs w W) as [Rl Rm].
  apply nth_ext with (d := false) (d' := false); [congruence|].
  intros j Hj; rewrite Hl in Hj.
  destruct (nth j (raw_indexes costs) false) eqn:E.
  - apply (Hm j Hj), (Rm j Hj); exact E.
  - apply not_true_iff_false; intros H; apply not_true_iff_false in E; apply E, (Rm j Hj), (Hm j Hj); exact H.
Qed.

(** In floating point it does: a dominated point may be returned and the point that dominates
    it dropped, when the costs have very different magnitudes. *)
Theorem C32_rounding_refuted : ~ (forall p q r : Z,
  let costs := [[f64_of_Z p]; [f64_of_Z q]; [f64_of_Z r]] in
  SFltb (f64_of_Z q) (f64_of_Z p) = true -> nth 0 (f64_pareto_indexes costs) true = false).
Proof. intros H; specialize (H 1 0 (10 ^ 17))%Z; vm_compute in H; discriminate (H eq_refl). Qed.

(** The sheets and what is left partition the points, and each sheet is the front of what the
    previous ones leave. *)
Theorem C33_sheets : forall A (std : list cell -> cell) n (objects : list A) costs w,
  deviation std -> length objects = length costs -> width w costs ->
  exists sheets rest, exact_sheets std n objects costs = (map (map fst) sheets, map fst rest)
    /\ length sheets = n
    /\ Permutation (concat sheets ++ rest) (combine objects costs)
    /\ forall k s, nth_error sheets k = Some s -> front (concat (skipn k sheets) ++ rest) s.
Proof. intros A std n objects costs w D L W; eapply sheets_spec; eassumption. Qed.

(** Each point of a sheet or left over is covered by a point of each previous sheet, and
    dominates none of its points. *)
Theorem C33_successive : forall A (std : list cell -> cell) n (objects : list A) costs w,
  deviation std -> length objects = length costs -> width w costs ->
  exists sheets rest, exact_sheets std n objects costs = (map (map fst) sheets, map fst rest)
    /\ Permutation (concat sheets ++ rest) (combine objects costs)
    /\ (forall i j s s' q, i < j -> nth_error sheets i = Some s -> nth_error sheets j = Some s' -> In q s' ->
          (exists p, In p s /\ covers (snd p) (snd q)) /\ forall p, In p s -> ~ dominates (snd q) (snd p))
    /\ (forall i s q, nth_error sheets i = Some s -> In q rest -> exists p, In p s /\ covers (snd p) (snd q)).
Proof.
  intros A std n objects costs w D L W.
  destruct (sheets_spec std D A n objects costs w L W) as (ps & rest & E & Ln & P & F).
  exists ps, rest; split; [exact E|split; [exact P|split]].
  - intros i j s s' q Hij Hi Hj I.
    assert (In q (concat (skipn i ps) ++ rest)) as Iq.
    { apply in_or_app; left; apply in_concat; exists s'; split; [|exact I].
      apply nth_error_In with (n := j - i).
      rewrite <- Hj; clear - Hij; revert i j Hij; induction ps as [|a ps IH]; intros i j Hij.
      - rewrite skipn_nil; destruct (j - i), j; reflexivity.
      - destruct i as [|i]; [rewrite Nat.sub_0_r; reflexivity|].
        destruct j as [|j]; [lia|]; simpl; apply IH; lia. }
    destruct (F i s Hi) as (F1 & F2 & F3); split; [apply F3; exact Iq|].
    intros p Ip; apply (proj2 (F1 p Ip)); exact Iq.
  - intros i s q Hi I; destruct (F i s Hi) as (F1 & F2 & F3).
    apply F3; apply in_or_app; right; exact I.
Qed.

Print Assumptions C32_front.
Print Assumptions C32_marked.
Print Assumptions C32_standardising.
Print Assumptions C32_rounding_refuted.
Print Assumptions C33_sheets.
Print Assumptions C33_successive.

(** ** Examples *)
(** a measure of deviation: whether the column is constant *)
Definition spread (l : list cell) : cell :=
  match l with
  | Some x :: l' => if forallb (fun c => match c with Some y => Qeq_bool x y | None => false end) l' then Some 0%Q else Some 1%Q
  | _ => Some 1%Q
  end.
Lemma spread_deviation : deviation spread.
Proof.
  intros [|x l] N; [contradiction|]; simpl.
  destruct (forallb _ (map Some l)) eqn:E; eexists; split; try reflexivity; [right|left; reflexivity].
  split; [reflexivity|].
  assert (forall y, In y (x :: l) -> x == y)%Q as K.
  { intros y [->|I]; [reflexivity|].
    eapply forallb_forall in E; [|apply in_map; exact I]; apply Qeq_bool_iff; exact E. }
  intros y z Iy Iz; rewrite <- (K y Iy); apply K; exact Iz.
Qed.

(** weight and price of five cars; the fourth has the costs of the second *)
Definition ex_costs : list (list Q) := [[3; 1]; [2; 2]; [3; 3]; [2; 2]; [1; 4]]%Q.
Definition ex_cars : list nat := [10; 11; 12; 13; 14].

Example C32_front_ex : exact_points spread ex_cars ex_costs = [10; 11; 14].
Proof. reflexivity. Qed.
Example C32_front_ex2 : exists kept, exact_points spread ex_cars ex_costs = map fst kept /\ front (combine ex_cars ex_costs) kept.
Proof.
  destruct (C32_front _ spread ex_cars ex_costs 2 spread_deviation eq_refl) as (kept & E & _ & F); [repeat constructor|].
  exists kept; split; assumption.
Qed.
(** a constant cost, the same for all cars *)
Example C32_constant_ex : exact_points spread ex_cars (map (cons 5%Q) ex_costs) = [10; 11; 14].
Proof. reflexivity. Qed.
Example C32_rounding_ex : f64_pareto_indexes [[f64_of_Z 1]; [f64_of_Z 0]; [f64_of_Z (10 ^ 17)]] = [true; false; false]
  /\ f64_pareto_indexes [[f64_of_Z 1]; [f64_of_Z 0]; [f64_of_Z (10 ^ 12)]] = [false; true; false].
Proof. split; vm_compute; reflexivity. Qed.
Example C33_sheets_ex : exact_sheets spread 2 ex_cars ex_costs = ([[10; 11; 14]; [13]], [12]).
Proof. reflexivity. Qed.
Example C33_successive_ex : exact_sheets spread 5 ex_cars ex_costs = ([[10; 11; 14]; [13]; [12]; []; []], []).
Proof. reflexivity. Qed.

(** Proofs about Pareto fronts. *)
From Coq Require Import ZArith QArith Bool Lia Permutation List.
From Verif Require Import Base ParetoModel ParetoSpec.
Import ListNotations.
Open Scope nat_scope.

(** ** Lists *)
Lemma map2_length : forall A B C (f : A -> B -> C) l m, length l = length m -> length (map2 f l m) = length l.
Proof.
  intros A B C f; induction l as [|x l IH]; intros [|y m] H; simpl in *; try discriminate; try reflexivity.
  injection H as H; rewrite (IH _ H); reflexivity.
Qed.
Lemma nth_map2 : forall A B C (f : A -> B -> C) l m i dl dm d,
  length l = length m -> i < length l -> nth i (map2 f l m) d = f (nth i l dl) (nth i m dm).
Proof.
  intros A B C f; induction l as [|x l IH]; intros [|y m] i dl dm d H Hi; simpl in *; try discriminate; try lia.
  destruct i as [|i]; [reflexivity|].
  apply IH; lia.
Qed.
Lemma set_true_length : forall m i, length (set_true i m) = length m.
Proof. induction m as [|b m IH]; intros [|i]; simpl; auto. Qed.
Lemma nth_set_true : forall m i j, j < length m ->
  nth j (set_true i m) false = (Nat.eqb i j || nth j m false)%bool.
Proof.
  induction m as [|b m IH]; intros i j H; simpl in *; [lia|].
  destruct i as [|i], j as [|j]; simpl; try reflexivity.
  apply IH; lia.
Qed.

(** ** Comparing costs *)
Lemma any_less_false_iff : forall T (lt : T -> T -> bool) row cost, length row = length cost ->
  any_less T lt row cost = false <-> Forall2 (fun x y => lt x y = false) row cost.
Proof.
  unfold any_less; intros T lt; induction row as [|x row IH]; intros [|y cost] H; simpl in *; try discriminate.
  - split; intros; [constructor | reflexivity].
  - injection H as H; rewrite orb_false_iff, (IH _ H); split.
    + intros [? ?]; constructor; assumption.
    + intros F; inversion F as [|? ? ? ? F1 F2]; subst; split; assumption.
Qed.

Lemma covers_refl : forall p, covers p p.
Proof. induction p as [|x p IH]; constructor; [apply Qle_refl | exact IH]. Qed.
Lemma covers_trans : forall p q r, covers p q -> covers q r -> covers p r.
Proof.
  intros p q r H; revert r; induction H as [|x y p q Hxy H IH]; intros r H2; inversion H2 as [|? z ? r' Hyz H2']; subst; constructor.
  - eapply Qle_trans; eassumption.
  - apply IH; exact H2'.
Qed.
Lemma covers_dec : forall p q, {covers p q} + {~ covers p q}.
Proof.
  induction p as [|x p IH]; intros [|y q].
  - left; constructor.
  - right; intros H; inversion H.
  - right; intros H; inversion H.
  - destruct (IH q) as [H|H]; [|right; intros H'; inversion H'; subst; contradiction].
    destruct (Qlt_le_dec y x) as [L|L].
    + right; intros H'; inversion H' as [|? ? ? ? L']; subst; exact (Qlt_not_le _ _ L L').
    + left; constructor; assumption.
Qed.
Lemma dominates_covers : forall p q, dominates p q <-> covers p q /\ ~ covers q p.
Proof.
  induction p as [|x p IH]; intros q; split.
  - intros [C E]; inversion C; subst; inversion E.
  - intros [C N]; inversion C; subst; exfalso; apply N; constructor.
  - intros [C E]; split; [exact C|].
    inversion C as [|? y ? q' Hxy C']; subst; simpl in E; intros C2.
    inversion C2 as [|? ? ? ? Hyx C2']; subst.
    inversion E as [? ? L|? ? E']; subst; simpl in *.
    + exact (Qlt_not_le _ _ L Hyx).
    + destruct (proj1 (IH q') (conj C' E')) as [_ N]; exact (N C2').
  - intros [C N]; split; [exact C|].
    inversion C as [|? y ? q' Hxy C']; subst; simpl.
    destruct (Qlt_le_dec x y) as [L|L]; [left; exact L|right].
    assert (~ covers q' p) as N' by (intros C2; apply N; constructor; assumption).
    exact (proj2 (proj2 (IH q') (conj C' N'))).
Qed.

(** ** The loop *)
Section Loop.
Variable T : Type.
Variable lt : T -> T -> bool.
Variable rows : list (list T).
Variable le : nat -> nat -> Prop.
Hypothesis le_spec : forall i j, i < length rows -> j < length rows ->
  any_less T lt (nth j rows []) (nth i rows []) = false <-> le i j.
Hypothesis le_trans : forall i j k, le i j -> le j k -> le i k.

Definition beats (k j : nat) : Prop := le k j /\ (k < j \/ ~ le j k).
Lemma beats_trans : forall i j k, beats i j -> beats j k -> beats i k.
Proof.
  intros i j k [H1 H1'] [H2 H2']; split; [eapply le_trans; eassumption|].
  destruct H1' as [L1|N1].
  - destruct H2' as [L2|N2]; [left; lia|].
    right; intros H; apply N2; eapply le_trans; eassumption.
  - right; intros H; apply N1; eapply le_trans; eassumption.
Qed.

Definition invariant (i : nat) (mask : list bool) : Prop :=
  length mask = length rows /\ forall j, j < length rows -> (nth j mask false = true <-> forall k, k < i -> ~ beats k j).

Lemma keep_better_step : forall i mask, i < length rows -> invariant i mask -> invariant (S i) (keep_better T lt rows mask i).
Proof.
  intros i mask Hi [Hl Hm]; unfold keep_better.
  destruct (nth i mask false) eqn:Ei.
  - split; [rewrite set_true_length, map2_length; assumption|].
    intros j Hj.
    rewrite nth_set_true by (rewrite map2_length by exact Hl; lia).
    rewrite (nth_map2 _ _ _ _ mask rows j false []) by (try exact Hl; lia).
    pose proof (proj1 (Hm i Hi) Ei) as Mi.
    rewrite orb_true_iff, andb_true_iff, (Hm j Hj), Nat.eqb_eq; split.
    + intros [<-|[Mj Aj]] k Hk B.
      * destruct (Nat.eq_dec k i) as [->|]; [destruct B as [B1 [L|N]]; [lia|contradiction]|].
        apply (Mi k); [lia|exact B].
      * destruct (Nat.eq_dec k i) as [->|]; [|apply (Mj k); [lia|exact B]].
        destruct B as [B1 _]; apply (le_spec i j Hi Hj) in B1; congruence.
    + intros M; destruct (Nat.eq_dec i j) as [E|N]; [left; exact E|right].
      split; [intros k Hk; apply M; lia|].
      destruct (any_less T lt (nth j rows []) (nth i rows [])) eqn:A; [reflexivity|exfalso].
      apply (le_spec i j Hi Hj) in A.
      destruct (any_less T lt (nth i rows []) (nth j rows [])) eqn:A2.
      * apply (M i); [lia|]; split; [exact A|right; intros H].
        apply (le_spec j i Hj Hi) in H; congruence.
      * apply (le_spec j i Hj Hi) in A2.
        destruct (Nat.lt_ge_cases i j) as [L|L].
        -- apply (M i); [lia|]; split; [exact A|left; exact L].
        -- apply (Mi j); [lia|]; split; [exact A2|left; lia].
  - split; [exact Hl|].
    intros j Hj; rewrite (Hm j Hj); split; intros M k Hk; [|apply M; lia].
    destruct (Nat.eq_dec k i) as [->|]; [|apply M; lia].
    intros B; rewrite <- not_true_iff_false in Ei; apply Ei.
    apply (Hm i Hi); intros k' Hk' B'; apply (M k' Hk').
    eapply beats_trans; eassumption.
Qed.

Lemma loop_invariant : forall n i mask, i + n = length rows -> invariant i mask ->
  invariant (length rows) (fold_left (keep_better T lt rows) (seq i n) mask).
Proof.
  induction n as [|n IH]; intros i mask Hn H; simpl.
  - replace (length rows) with i by lia; exact H.
  - apply IH; [lia|]; apply keep_better_step; [lia|exact H].
Qed.
End Loop.

(** ** Standardising *)
Lemma sum_cells_some : forall l a, exists s,
  fold_left (fun a b => match a, b with Some x, Some y => Some (x + y)%Q | _, _ => None end) (map Some l) (Some a) = Some s.
Proof. induction l as [|x l IH]; intros a; simpl; [exists a; reflexivity|apply IH]. Qed.
Lemma mean_some : forall l, l <> [] -> exists m, mean_cells (map Some l) = Some m.
Proof.
  intros l N; unfold mean_cells, sum_cells.
  destruct (sum_cells_some l 0%Q) as (s & ->); simpl.
  destruct (Qeq_bool _ _) eqn:E; [exfalso|eexists; reflexivity].
  apply Qeq_bool_iff in E; unfold Qeq in E; simpl in E; rewrite map_length in E.
  destruct l; [contradiction|simpl in E; lia].
Qed.

Section Standard.
Variable std : list cell -> cell.
Hypothesis std_spec : deviation std.

Lemma cell_lt_standard : forall m s x y, (0 < s)%Q \/ (s == 0 /\ x == y)%Q ->
  cell_lt (cell_div (cell_sub (Some x) (Some m)) (Some s)) (cell_div (cell_sub (Some y) (Some m)) (Some s)) = false
  <-> (y <= x)%Q.
Proof.
  intros m s x y [P|[Z E]]; unfold cell_div; simpl.
  - assert (Qeq_bool s 0 = false) as ->.
    { apply not_true_iff_false; rewrite Qeq_bool_iff; intros H; rewrite H in P; exact (Qlt_irrefl _ P). }
    simpl; rewrite negb_false_iff, Qle_bool_iff.
    split; intros H.
    + assert (y - m <= x - m)%Q as H'.
      { apply (Qmult_le_r _ _ (/ s)); [apply Qinv_lt_0_compat; exact P|exact H]. }
      apply (Qplus_le_l _ _ (- m)); exact H'.
    + apply Qmult_le_compat_r; [apply Qplus_le_l; exact H|apply Qlt_le_weak, Qinv_lt_0_compat; exact P].
  - assert (Qeq_bool s 0 = true) as -> by (apply Qeq_bool_iff; exact Z).
    simpl; split; [intros _|reflexivity].
    rewrite E; apply Qle_refl.
Qed.

Notation standard := (standardise cell None cell_sub cell_div mean_cells std).
Lemma standardise_length : forall costs, length (standard (cells costs)) = length costs.
Proof. intros; unfold standardise, cells; rewrite !map_length; reflexivity. Qed.

Lemma column_cells : forall w costs k, width w costs -> k < w ->
  column cell None (cells costs) k = map Some (map (fun row => nth k row 0%Q) costs).
Proof.
  intros w costs k W Hk; unfold column, cells; rewrite !map_map; apply map_ext_in; intros row I.
  eapply Forall_forall in W; [|exact I]; simpl in W.
  rewrite nth_indep with (d' := Some 0%Q) by (rewrite map_length; lia).
  apply map_nth.
Qed.

Lemma standard_covers : forall costs w i j, width w costs -> i < length costs -> j < length costs ->
  any_less cell cell_lt (nth j (standard (cells costs)) []) (nth i (standard (cells costs)) []) = false
  <-> covers (nth i costs []) (nth j costs []).
Proof.
  intros costs w i j W Hi Hj.
  set (h := fun k x => cell_div (cell_sub x (mean_cells (column cell None (cells costs) k))) (std (column cell None (cells costs) k))).
  set (g := fun row : list Q => map2 h (seq 0 (length row)) (map Some row)).
  assert (forall k, k < length costs -> nth k (standard (cells costs)) [] = g (nth k costs [])) as G.
  { intros k Hk; unfold standardise, cells; rewrite map_map.
    rewrite map_ext with (g := g) by (intros row; unfold g; rewrite map_length; reflexivity).
    rewrite nth_indep with (d' := g []) by (rewrite map_length; exact Hk).
    apply map_nth. }
  rewrite (G i Hi), (G j Hj).
  assert (forall k, k < length costs -> In (nth k costs []) costs) as IN by (intros; apply nth_In; assumption).
  assert (length (nth i costs []) = w) as Li by (eapply Forall_forall in W; [exact W|apply IN; exact Hi]).
  assert (length (nth j costs []) = w) as Lj by (eapply Forall_forall in W; [exact W|apply IN; exact Hj]).
  assert (costs <> []) as NE by (intros ->; simpl in Hi; lia).
  rewrite any_less_false_iff
    by (unfold g; rewrite !map2_length by (rewrite seq_length, map_length; reflexivity); rewrite !seq_length; congruence).
  unfold g; rewrite Li, Lj.
  assert (forall p q o, length p = length q -> o + length p <= w ->
            (forall k, k < length p -> nth k p 0%Q = nth (o + k) (nth i costs []) 0%Q /\ nth k q 0%Q = nth (o + k) (nth j costs []) 0%Q) ->
            Forall2 (fun x y => cell_lt x y = false) (map2 h (seq o (length p)) (map Some q)) (map2 h (seq o (length p)) (map Some p))
            <-> covers p q) as K.
  { induction p as [|x p IH]; intros [|y q] o L Ho H; simpl in *; try discriminate.
    - split; constructor.
    - injection L as L.
      assert (cell_lt (h o (Some y)) (h o (Some x)) = false <-> (x <= y)%Q) as HD.
      { unfold h; rewrite (column_cells w costs o W) by lia.
        set (c := map (fun row => nth o row 0%Q) costs).
        assert (c <> []) as NC by (unfold c; destruct costs; [contradiction|discriminate]).
        destruct (mean_some c NC) as (m & ->).
        destruct (std_spec c NC) as (s & -> & D).
        apply cell_lt_standard.
        destruct D as [P|[Z E]]; [left; exact P|right; split; [exact Z|]].
        destruct (H 0 ltac:(lia)) as [Hx Hy]; rewrite Nat.add_0_r in *; subst x y.
        apply E; unfold c; apply in_map_iff.
        - exists (nth j costs []); split; [reflexivity|apply IN; exact Hj].
        - exists (nth i costs []); split; [reflexivity|apply IN; exact Hi]. }
      assert (Forall2 (fun x y => cell_lt x y = false) (map2 h (seq (S o) (length p)) (map Some q)) (map2 h (seq (S o) (length p)) (map Some p))
            <-> covers p q) as TL.
      { apply IH; [exact L|lia|]; intros k Hk.
        destruct (H (S k) ltac:(lia)) as [Hx Hy]; simpl in Hx, Hy.
        rewrite Nat.add_succ_r in *; split; assumption. }
      split; intros F; inversion F as [|? ? ? ? F1 F2]; subst; constructor; tauto. }
  rewrite <- (K (nth i costs []) (nth j costs []) 0); [rewrite Li; tauto|congruence|lia|].
  intros k Hk; split; reflexivity.
Qed.

(** Which points are marked: those that no other covers, the first one among equals. *)
Lemma pareto_mask : forall costs w, width w costs ->
  length (exact_indexes std costs) = length costs /\
  forall j, j < length costs ->
    (nth j (exact_indexes std costs) false = true
     <-> forall k, k < length costs -> covers (nth k costs []) (nth j costs []) ->
                   covers (nth j costs []) (nth k costs []) /\ j <= k).
Proof.
  intros costs w W.
  set (le := fun i j => covers (nth i costs []) (nth j costs [])).
  assert (invariant cell (standard (cells costs)) le (length costs) (exact_indexes std costs)) as [Hl Hm].
  { rewrite <- standardise_length at 1; unfold exact_indexes, pareto_indexes.
    replace (length (cells costs)) with (length costs) by (unfold cells; rewrite map_length; reflexivity).
    apply loop_invariant.
    - intros i j Hi Hj; rewrite standardise_length in *; eapply standard_covers; eassumption.
    - intros i j k; apply covers_trans.
    - rewrite standardise_length; reflexivity.
    - split; [rewrite map_length, standardise_length; unfold cells; apply map_length|].
      intros j Hj; rewrite standardise_length in Hj; split; [intros _ k Hk; lia|intros _].
      clear - Hj; revert j Hj; induction costs as [|c costs IH]; intros j Hj; simpl in *; [lia|].
      destruct j; [reflexivity|apply IH; lia]. }
  rewrite standardise_length in *; split; [exact Hl|].
  intros j Hj; rewrite (Hm j Hj); split.
  - intros M k Hk C.
    destruct (covers_dec (nth j costs []) (nth k costs [])) as [D|D].
    + split; [exact D|]; destruct (Nat.le_gt_cases j k) as [L|L]; [exact L|].
      exfalso; apply (M k Hk); split; [exact C|left; exact L].
    + exfalso; apply (M k Hk); split; [exact C|right; exact D].
  - intros M k Hk [C [L|N]]; destruct (M k Hk C) as [D G]; [lia|contradiction].
Qed.
End Standard.

(** ** From marks to points *)
Lemma in_compress : forall A (l : list A) m x, length l = length m ->
  (In x (compress l m) <-> exists i, nth_error l i = Some x /\ nth i m false = true).
Proof.
  induction l as [|y l IH]; intros [|b m] x H; simpl in *; try discriminate.
  - split; [contradiction|]; intros (i & Hi & _); destruct i; discriminate.
  - injection H as H; specialize (IH m x H); split.
    + intros I; destruct b; [destruct I as [->|I]|].
      * exists 0; split; reflexivity.
      * destruct (proj1 IH I) as (i & ? & ?); exists (S i); split; assumption.
      * destruct (proj1 IH I) as (i & ? & ?); exists (S i); split; assumption.
    + intros ([|i] & Hi & Hb); simpl in *.
      * injection Hi as ->; subst b; left; reflexivity.
      * destruct b; [right|]; apply IH; exists i; split; assumption.
Qed.
Lemma compress_pairs : forall A (R : A -> A -> Prop) (l : list A) m, length l = length m ->
  (forall i j x y, i < j -> nth_error l i = Some x -> nth_error l j = Some y ->
                   nth i m false = true -> nth j m false = true -> R x y) ->
  ForallOrdPairs R (compress l m).
Proof.
  induction l as [|x l IH]; intros [|b m] H HR; simpl in *; try discriminate; [constructor|].
  injection H as H.
  assert (ForallOrdPairs R (compress l m)) as T.
  { apply IH; [exact H|]; intros i j y z Hij Hi Hj Bi Bj.
    apply (HR (S i) (S j)); try assumption; lia. }
  destruct b; [|exact T].
  constructor; [|exact T].
  apply Forall_forall; intros y I; apply (in_compress _ _ _ _ H) in I as (j & Hj & Bj).
  apply (HR 0 (S j)); try assumption; try reflexivity; lia.
Qed.
Lemma compress_partition : forall A (l : list A) m, length l = length m ->
  Permutation (compress l m ++ compress l (map negb m)) l.
Proof.
  induction l as [|x l IH]; intros [|b m] H; simpl in *; try discriminate; [constructor|].
  injection H as H; destruct b; simpl.
  - apply perm_skip, IH; exact H.
  - rewrite <- Permutation_middle; apply perm_skip, IH; exact H.
Qed.
Lemma compress_combine : forall A B (l : list A) (c : list B) m, length l = length c ->
  compress (combine l c) m = combine (compress l m) (compress c m).
Proof.
  induction l as [|x l IH]; intros [|y c] m H; simpl in *; try discriminate; [destruct m; reflexivity|].
  destruct m as [|[|] m]; simpl; [reflexivity| |]; rewrite IH by lia; reflexivity.
Qed.
Lemma compress_length : forall A B (l : list A) (c : list B) m, length l = length c ->
  length (compress l m) = length (compress c m).
Proof.
  induction l as [|x l IH]; intros [|y c] m H; simpl in *; try discriminate; [reflexivity|].
  destruct m as [|[|] m]; simpl; [reflexivity| |]; rewrite (IH c) by lia; reflexivity.
Qed.
Lemma map_fst_combine : forall A B (l : list A) (c : list B), length l = length c -> map fst (combine l c) = l.
Proof. induction l as [|x l IH]; intros [|y c] H; simpl in *; try discriminate; [reflexivity|]; rewrite IH by lia; reflexivity. Qed.
Lemma compress_In : forall A (l : list A) m x, In x (compress l m) -> In x l.
Proof.
  induction l as [|y l IH]; intros [|[|] m] x H; simpl in *; try contradiction.
  - destruct H as [->|H]; [left; reflexivity|right; eapply IH; exact H].
  - right; eapply IH; exact H.
Qed.
Lemma compress_width : forall w costs m, width w costs -> width w (compress costs m).
Proof. unfold width; intros w costs m H; apply Forall_forall; intros x I; eapply Forall_forall in H; [exact H|eapply compress_In; exact I]. Qed.
Lemma nth_error_combine : forall A B (l : list A) (c : list B) i p, length l = length c ->
  nth_error (combine l c) i = Some p -> nth_error l i = Some (fst p) /\ nth_error c i = Some (snd p).
Proof.
  induction l as [|x l IH]; intros [|y c] i p H; simpl in *; try discriminate; intros E; [destruct i; discriminate|].
  destruct i as [|i]; simpl in *; [injection E as <-; split; reflexivity|apply IH; [lia|exact E]].
Qed.

Lemma compress_map : forall A B (f : A -> B) (l : list A) m, compress (map f l) m = map f (compress l m).
Proof. induction l as [|x l IH]; intros [|[|] m]; simpl; try reflexivity; [f_equal; apply IH|apply IH]. Qed.

Section Front.
Variable std : list cell -> cell.
Hypothesis std_spec : deviation std.

Lemma minimal_exists : forall (costs : list (list Q)) q, q < length costs ->
  exists p, p < length costs /\ covers (nth p costs []) (nth q costs []) /\
    forall k, k < length costs -> covers (nth k costs []) (nth p costs []) ->
              covers (nth p costs []) (nth k costs []) /\ p <= k.
Proof.
  intros costs.
  set (n := length costs); set (c := fun i => nth i costs []).
  (* best among the first indices *)
  assert (forall m, m <= n -> forall q, q < n -> exists p, p < n /\ covers (c p) (c q) /\
            forall k, k < m -> covers (c k) (c p) -> covers (c p) (c k) /\ p <= k) as G.
  { induction m as [|m IH]; intros Hm q Hq.
    - exists q; split; [exact Hq|split; [apply covers_refl|intros; lia]].
    - destruct (IH ltac:(lia) q Hq) as (p & Hp & Cp & Mp).
      destruct (covers_dec (c m) (c p)) as [C|C].
      + destruct (covers_dec (c p) (c m)) as [D|D].
        * destruct (Nat.le_gt_cases p m) as [L|L].
          -- exists p; split; [exact Hp|split; [exact Cp|]].
             intros k Hk Ck; destruct (Nat.eq_dec k m) as [->|]; [split; assumption|apply Mp; [lia|exact Ck]].
          -- exists m; split; [lia|split; [eapply covers_trans; eassumption|]].
             intros k Hk Ck; destruct (Nat.eq_dec k m) as [->|]; [split; [apply covers_refl|lia]|].
             destruct (Mp k ltac:(lia) (covers_trans _ _ _ Ck C)) as [E ?]; lia.
        * exists m; split; [lia|split; [eapply covers_trans; eassumption|]].
          intros k Hk Ck; destruct (Nat.eq_dec k m) as [->|]; [split; [apply covers_refl|lia]|].
          destruct (Mp k ltac:(lia) (covers_trans _ _ _ Ck C)) as [E ?].
          exfalso; apply D; eapply covers_trans; eassumption.
      + exists p; split; [exact Hp|split; [exact Cp|]].
        intros k Hk Ck; destruct (Nat.eq_dec k m) as [->|]; [contradiction|apply Mp; [lia|exact Ck]]. }
  intros q Hq; exact (G n (le_n _) q Hq).
Qed.

Lemma pareto_front : forall A (objects : list A) costs w, length objects = length costs -> width w costs ->
  front (combine objects costs) (compress (combine objects costs) (exact_indexes std costs)).
Proof.
  intros A objects costs w L W.
  destruct (pareto_mask std std_spec costs w W) as [Hl Hm].
  assert (length (combine objects costs) = length (exact_indexes std costs)) as Hc
    by (rewrite combine_length, Hl, L; apply Nat.min_id).
  assert (forall i p, nth_error (combine objects costs) i = Some p -> i < length costs /\ nth i costs [] = snd p) as N.
  { intros i p Hi; apply nth_error_combine in Hi as [_ Hi]; [|exact L]; split.
    - apply nth_error_Some; congruence.
    - apply nth_error_nth; exact Hi. }
  split; [|split].
  - intros p I; split; [eapply compress_In; exact I|].
    apply (in_compress _ _ _ _ Hc) in I as (j & Hj & Bj); destruct (N _ _ Hj) as [Lj Ej].
    pose proof (proj1 (Hm j Lj) Bj) as M.
    intros q Iq D; apply In_nth_error in Iq as (k & Hk); destruct (N _ _ Hk) as [Lk Ek].
    apply dominates_covers in D as [C D]; rewrite <- Ek, <- Ej in *.
    apply D; apply M; assumption.
  - apply compress_pairs; [exact Hc|].
    intros i j p q Hij Hi Hj Bi Bj; destruct (N _ _ Hi) as [Li Ei]; destruct (N _ _ Hj) as [Lj Ej].
    pose proof (proj1 (Hm i Li) Bi) as Mi; pose proof (proj1 (Hm j Lj) Bj) as Mj.
    rewrite <- Ei, <- Ej; split; intros C.
    + destruct (Mj i Li C); lia.
    + destruct (Mi j Lj C) as [C' _]; destruct (Mj i Li C'); lia.
  - intros q Iq; apply In_nth_error in Iq as (k & Hk); destruct (N _ _ Hk) as [Lk Ek].
    destruct (minimal_exists costs k Lk) as (p & Lp & Cp & Mp).
    destruct (nth_error (combine objects costs) p) as [x|] eqn:Hp.
    + destruct (N _ _ Hp) as [_ Ep].
      exists x; split; [|rewrite <- Ep, <- Ek; exact Cp].
      apply (in_compress _ _ _ _ Hc); exists p; split; [exact Hp|apply (Hm p Lp); exact Mp].
    + apply nth_error_None in Hp; rewrite combine_length, L, Nat.min_id in Hp; lia.
Qed.

Lemma sheets_spec : forall A n (objects : list A) costs w, length objects = length costs -> width w costs ->
  exists ps rest, exact_sheets std n objects costs = (map (map fst) ps, map fst rest)
    /\ length ps = n
    /\ Permutation (concat ps ++ rest) (combine objects costs)
    /\ forall k s, nth_error ps k = Some s -> front (concat (skipn k ps) ++ rest) s.
Proof.
  intros A; unfold exact_sheets; induction n as [|n IH]; intros objects costs w L W; simpl.
  - exists [], (combine objects costs); simpl; rewrite map_fst_combine by exact L.
    split; [reflexivity|split; [reflexivity|split; [reflexivity|intros [|k] s H; discriminate]]].
  - fold (exact_indexes std costs); set (m := exact_indexes std costs).
    assert (compress (cells costs) (map negb m) = cells (compress costs (map negb m))) as ->.
    { unfold cells; apply compress_map. }
    destruct (IH (compress objects (map negb m)) (compress costs (map negb m)) w) as (ps & rest & E & Ln & P & F).
    { apply compress_length; exact L. }
    { apply compress_width; exact W. }
    rewrite E.
    exists (compress (combine objects costs) m :: ps), rest; simpl.
    split; [|split; [|split]].
    + f_equal; f_equal; rewrite compress_combine by exact L.
      symmetry; apply map_fst_combine, compress_length; exact L.
    + rewrite Ln; reflexivity.
    + rewrite <- app_assoc, P, <- compress_combine by exact L.
      apply compress_partition.
      destruct (pareto_mask std std_spec costs w W) as [Hl _]; fold m in Hl.
      rewrite combine_length, Hl, L; apply Nat.min_id.
    + intros [|k] s H; simpl in *; [|exact (F k s H)].
      injection H as <-.
      destruct (pareto_front _ objects costs w L W) as (F1 & F2 & F3); fold m in F1, F2, F3.
      assert (Permutation ((compress (combine objects costs) m ++ concat ps) ++ rest) (combine objects costs)) as P'.
      { rewrite <- app_assoc, P, <- compress_combine by exact L.
        apply compress_partition.
        destruct (pareto_mask std std_spec costs w W) as [Hl _]; fold m in Hl.
        rewrite combine_length, Hl, L; apply Nat.min_id. }
      split; [|split].
      * intros p I; destruct (F1 p I) as [Ia D]; split.
        -- eapply Permutation_in; [symmetry; exact P'|exact Ia].
        -- intros q Iq; apply D; eapply Permutation_in; [exact P'|exact Iq].
      * exact F2.
      * intros q Iq; apply F3; eapply Permutation_in; [exact P'|exact Iq].
Qed.
End Front.

Lemma compress_subsequence : forall A (l : list A) m, length l = length m -> subsequence (compress l m) l.
Proof.
  induction l as [|x l IH]; intros [|b m] H; simpl in *; try discriminate; [constructor|].
  destruct b; constructor; apply IH; lia.
Qed.

(** Without standardising *)
Lemma raw_mask : forall costs w, width w costs ->
  length (raw_indexes costs) = length costs /\
  forall j, j < length costs ->
    (nth j (raw_indexes costs) false = true
     <-> forall k, k < length costs -> covers (nth k costs []) (nth j costs []) ->
                   covers (nth j costs []) (nth k costs []) /\ j <= k).
Proof.
  intros costs w W.
  set (le := fun i j => covers (nth i costs []) (nth j costs [])).
  assert (forall cs, standardise cell None (fun x _ => x) (fun x _ => x) (fun _ => None) (fun _ => None) cs = cs) as ST.
  { intros cs; unfold standardise; rewrite <- map_id; apply map_ext; intros row.
    generalize 0; induction row as [|x row IH]; intros o; simpl; [reflexivity|f_equal; apply IH]. }
  assert (length (cells costs) = length costs) as LC by (unfold cells; apply map_length).
  assert (invariant cell (cells costs) le (length costs) (raw_indexes costs)) as [Hl Hm].
  { rewrite <- LC at 1; unfold raw_indexes, pareto_indexes; rewrite ST.
    apply loop_invariant.
    - intros i j Hi Hj; rewrite LC in *; unfold cells, le.
      change (@nil cell) with (map (@Some Q) []); rewrite !map_nth.
      assert (forall k, k < length costs -> length (nth k costs []) = w) as LW.
      { intros k Hk; eapply Forall_forall in W; [exact W|apply nth_In; exact Hk]. }
      rewrite any_less_false_iff by (rewrite !map_length, !LW by assumption; reflexivity).
      generalize (nth j costs []) (nth i costs []); intros q p; revert p; induction q as [|y q IH]; intros [|x p]; simpl;
        (split; intros F; inversion F as [|? ? ? ? F1 F2]; subst; constructor).
      + simpl in F1; rewrite negb_false_iff, Qle_bool_iff in F1; exact F1.
      + apply IH; exact F2.
      + simpl; rewrite negb_false_iff, Qle_bool_iff; exact F1.
      + apply IH; exact F2.
    - intros i j k; apply covers_trans.
    - reflexivity.
    - split; [apply map_length|].
      intros j Hj; split; [intros _ k Hk; lia|intros _].
      generalize (cells costs), Hj; clear; intros cs; revert j; induction cs as [|c cs IH]; intros j Hj; simpl in *; [lia|].
      destruct j; [reflexivity|apply IH; lia]. }
  rewrite LC in *; split; [exact Hl|].
  intros j Hj; rewrite (Hm j Hj); split.
  - intros M k Hk C.
    destruct (covers_dec (nth j costs []) (nth k costs [])) as [D|D].
    + split; [exact D|]; destruct (Nat.le_gt_cases j k) as [L|L]; [exact L|].
      exfalso; apply (M k Hk); split; [exact C|left; exact L].
    + exfalso; apply (M k Hk); split; [exact C|right; exact D].
  - intros M k Hk [C [L|N]]; destruct (M k Hk C) as [D G]; [lia|contradiction].
Qed.

(** C51, C52: clustered datasets, Pareto sheets as clusters. *)
From Coq Require Import ZArith QArith Bool DecimalString String Lia Sorted Permutation List.
From Verif Require Import Base BaseProofs DatasetModel DatasetSpec DatasetProofs DatasetProps
  ParetoModel ParetoSpec ParetoProofs ParetoProps ClusterModel ClusterSpec ClusterProofs.
Import ListNotations.
Open Scope string_scope.
Open Scope list_scope.
Open Scope nat_scope.

Section Props.
Variable Obj V : Type.
Variable cls : Obj -> nat.
Variable vector_features : Obj -> list string.
Variable set_list others : list Z -> list Z.
Notation clustered := (clustered Obj V).
Notation labels := (labels Obj V).
Notation base := (base Obj V).
Notation parts := (parts Obj V).
Notation objects := (DatasetModel.objects Obj V).
Notation split_labels := (split_labels Obj V).
Notation clustered_sublists := (clustered_sublists Obj V set_list others).
Notation merge_sublists := (merge_sublists Obj V cls vector_features).
Notation getitem := (getitem Obj V).
Notation cluster_getitem := (cluster_getitem Obj V).
Notation point_families := (point_families Obj V set_list).

(** ** C51 *)
(** Splitting gives a dataset per label, with the objects of this label in their order. *)
Theorem C51_split : lists_set set_list -> lists_others others ->
  forall name (c : clustered), one_label_each c ->
  exists s zs, clustered_sublists name c = Ok s /\ NoDup zs /\ (forall z, In z zs <-> In z (labels c))
    /\ Forall2 (fun z part => objects (snd part) = members z (labelled c) /\ objects (snd part) <> []) zs (parts s)
    /\ Permutation (concat (map (fun part => objects (snd part)) (parts s))) (objects (base c))
    /\ length (split_labels s) = length (parts s).
Proof.
  intros F G name c L; eexists; exists (set_list (labels c)); split; [apply (split_result set_list others F G); exact L|].
  destruct (F (labels c)) as [ND I]; split; [exact ND|split; [exact I|]].
  pose proof (split_parts set_list others F G c name L) as E; cbn [ClusterModel.parts ClusterModel.split_labels].
  set (ps := map _ (combine _ _)) in *; split; [|split].
  - assert (Forall (fun z => members z (labelled c) <> []) (set_list (labels c))) as NE.
    { apply Forall_forall; intros z J; apply member_label; rewrite labelled_snd by exact L; apply I; exact J. }
    revert E NE; clear; generalize (set_list (labels c)); induction ps as [|p ps IH]; intros [|z zs] E NE; try discriminate; constructor.
    + injection E as E _; inversion NE; subst; split; [exact E|rewrite E; assumption].
    + inversion NE; subst; apply IH; [injection E as _ E; exact E|assumption].
  - rewrite E, <- labelled_fst by exact L.
    rewrite <- (Permutation_map fst (group_perm (labelled c) (set_list (labels c)) ND (fun z J => proj2 (I z) (eq_ind _ (fun l => In z l) J _ (labelled_snd c L))))).
    rewrite flat_map_concat_map, concat_map, map_map.
    erewrite (map_ext (fun x => map fst (map (fun o => (o, x)) (members x (labelled c))))); [reflexivity|].
    intros z; rewrite map_map; apply map_id.
  - rewrite (length_reported set_list others F G), <- (map_length (fun part => objects (snd part)) ps), E, map_length; reflexivity.
Qed.

(** The label reported for each of these datasets is the one of its objects when the set of the
    labels is listed like the set without -1, followed by -1; when the objects are distinct, only
    then. *)
Theorem C51_labels : lists_set set_list -> lists_others others ->
  forall name (c : clustered), one_label_each c ->
  exists s, clustered_sublists name c = Ok s
    /\ (set_list (labels c) = others (labels c) ++ (if memb Z.eqb (-1)%Z (labels c) then [(-1)%Z] else []) ->
        Forall2 (fun z part => objects (snd part) = members z (labelled c)) (split_labels s) (parts s))
    /\ (NoDup (objects (base c)) ->
        Forall2 (fun z part => objects (snd part) = members z (labelled c)) (split_labels s) (parts s) ->
        set_list (labels c) = others (labels c) ++ (if memb Z.eqb (-1)%Z (labels c) then [(-1)%Z] else [])).
Proof.
  intros F G name c L; eexists; split; [apply (split_result set_list others F G); exact L|].
  destruct (F (labels c)) as [ND I].
  pose proof (split_parts set_list others F G c name L) as E; cbn [ClusterModel.parts ClusterModel.split_labels].
  set (ps := map _ (combine _ _)) in *.
  change (if memb Z.eqb (-1)%Z (labels c) then [(-1)%Z] else []) with (tail_of (labels c)); split.
  - intros H; rewrite <- H; revert E; clear; generalize (set_list (labels c)); induction ps as [|p ps IH]; intros [|z zs] E; try discriminate; constructor.
    + injection E as E _; exact E.
    + apply IH; injection E as _ E; exact E.
  - intros NO H.
    assert (forall z, In z (set_list (labels c)) -> exists o, In (o, z) (labelled c) /\ In o (members z (labelled c))) as NE.
    { intros z J; apply I in J; rewrite <- (labelled_snd c L) in J; apply in_map_iff in J as ([o y] & Ey & J); simpl in Ey; subst y.
      exists o; split; [exact J|]; unfold members; apply in_map_iff; exists (o, z); split; [reflexivity|].
      apply filter_In; split; [exact J|apply Z.eqb_refl]. }
    assert (forall o z y, In (o, z) (labelled c) -> In (o, y) (labelled c) -> z = y) as U.
    { rewrite <- (labelled_fst c L) in NO; revert NO; clear; generalize (labelled c).
      induction l as [|[o' z'] l IH]; intros NO o z y I1 I2; [contradiction|].
      simpl in NO; inversion NO as [|? ? NI NO']; subst.
      destruct I1 as [E1|I1], I2 as [E2|I2].
      - congruence.
      - injection E1 as -> ->; exfalso; apply NI; apply (in_map fst _ _ I2).
      - injection E2 as -> ->; exfalso; apply NI; apply (in_map fst _ _ I1).
      - exact (IH NO' o z y I1 I2). }
    assert (Forall2 (fun z y => members z (labelled c) = members y (labelled c)) (others (labels c) ++ tail_of (labels c)) (set_list (labels c))) as K.
    { revert E H; clear; generalize (set_list (labels c)) (others (labels c) ++ tail_of (labels c)).
      induction ps as [|p ps IH]; intros [|z zs] ys E H; inversion H as [|? ? ? ? H1 H2]; subst; try discriminate; constructor.
      - injection E as E _; congruence.
      - apply IH; [injection E as _ E; exact E|assumption]. }
    symmetry; revert K NE U; clear; generalize (set_list (labels c)); intros l K; induction K as [|z y zs ys H K IH]; intros NE U; [reflexivity|].
    f_equal; [|apply IH; [intros x J; apply NE; right; exact J|exact U]].
    destruct (NE y (or_introl eq_refl)) as (o & I1 & I2); rewrite <- H in I2.
    unfold members in I2; apply in_map_iff in I2 as ([o' z'] & E1 & J); simpl in E1; subst o'.
    apply filter_In in J as [J E2]; apply Z.eqb_eq in E2; simpl in E2; subst z'; exact (U _ _ _ J I1).
Qed.

(** With labels from 0 to 9 listed in increasing order, and -1 for the outliers, listed last, each
    dataset is named after its label. *)
Theorem C51_names : lists_set set_list -> lists_others others ->
  forall name (c : clustered), one_label_each c ->
  set_list (labels c) = others (labels c) ++ (if memb Z.eqb (-1)%Z (labels c) then [(-1)%Z] else []) ->
  StronglySorted Z.lt (others (labels c)) -> (forall z, In z (labels c) -> (-1 <= z <= 9)%Z) ->
  exists s, clustered_sublists name c = Ok s
    /\ Forall2 (fun z part => objects (snd part) = members z (labelled c)
                 /\ fst part = (name ++ "_" ++ if (z =? -1)%Z then "outliers" else NilZero.string_of_int (Z.to_int z))%string)
               (split_labels s) (parts s).
Proof.
  intros F G name c L A ST R; eexists; split; [apply (split_result set_list others F G); exact L|].
  cbn [ClusterModel.parts ClusterModel.split_labels].
  change (if memb Z.eqb (-1)%Z (labels c) then [(-1)%Z] else []) with (tail_of (labels c)) in A.
  destruct (G (labels c)) as [_ I].
  assert (tags_of others (labels c) = map (fun z => if (z =? -1)%Z then "outliers" else str_of_Z z) (others (labels c) ++ tail_of (labels c))) as ET.
  { unfold tags_of, tail_of, has_outliers; rewrite map_app; f_equal; [|destruct (memb _ _ _); reflexivity].
    rewrite sorted_digits; [|exact ST|].
    - apply map_ext_in; intros z J; apply I in J as [_ J]; rewrite (proj2 (Z.eqb_neq _ _) J); reflexivity.
    - intros z J; apply I in J as [J J']; specialize (R z J); lia. }
  rewrite ET, A; clear; generalize (others (labels c) ++ tail_of (labels c)).
  induction l as [|z l IH]; simpl; constructor; [split; reflexivity|exact IH].
Qed.

(** Merging the split dataset gives the same objects; with the same labels when the reported
    labels are right. *)
Theorem C51_merge : lists_set set_list -> lists_others others ->
  forall name (c : clustered), one_label_each c -> objects (base c) <> [] ->
  exists s c', clustered_sublists name c = Ok s /\ merge_sublists s = Ok c' /\ one_label_each c'
    /\ Permutation (objects (base c')) (objects (base c))
    /\ (set_list (labels c) = others (labels c) ++ (if memb Z.eqb (-1)%Z (labels c) then [(-1)%Z] else []) ->
        Permutation (labelled c') (labelled c)).
Proof.
  intros F G name c L NE.
  destruct (merge_spec cls vector_features set_list others F G name c L NE) as (s & c' & E & E' & O & LL).
  exists s, c'; split; [exact E|split; [exact E'|]].
  destruct (F (labels c)) as [ND I].
  assert (Permutation (flat_map (fun z => map (fun o => (o, z)) (members z (labelled c))) (set_list (labels c))) (labelled c)) as P.
  { apply group_perm; [exact ND|]; intros z J; apply I; rewrite <- (labelled_snd c L); exact J. }
  pose proof (length_reported set_list others F G (labels c)) as LR.
  split; [|split].
  - unfold one_label_each; rewrite O, LL.
    revert LR; clear; generalize (set_list (labels c)); generalize (others (labels c) ++ tail_of (labels c)).
    induction l as [|r l IH]; intros [|z zs] H; simpl in *; try discriminate; [reflexivity|].
    rewrite !app_length, repeat_length; rewrite (IH zs) by lia; reflexivity.
  - rewrite O, <- (labelled_fst c L), <- (Permutation_map fst P), flat_map_concat_map, concat_map, map_map.
    erewrite (map_ext (fun x => map fst (map (fun o => (o, x)) (members x (labelled c))))); [reflexivity|].
    intros z; rewrite map_map; apply map_id.
  - intros A; change (if memb Z.eqb (-1)%Z (labels c) then [(-1)%Z] else []) with (tail_of (labels c)) in A.
    assert (labelled c' = flat_map (fun z => map (fun o => (o, z)) (members z (labelled c))) (set_list (labels c))) as ->; [|exact P].
    unfold labelled at 1; rewrite O, LL, <- A; clear.
    assert (forall (l m : list Obj) (x y : list Z), length l = length x -> combine (l ++ m) (x ++ y) = combine l x ++ combine m y) as K.
    { induction l as [|a l IH]; intros m [|b x] y H; simpl in *; try discriminate; [reflexivity|f_equal; apply IH; lia]. }
    induction (set_list (labels c)) as [|z zs IH]; [reflexivity|]; simpl.
    rewrite K by (rewrite repeat_length; reflexivity); rewrite IH; f_equal.
    induction (members z (labelled c)) as [|o os IHo]; simpl; [reflexivity|f_equal; exact IHo].
Qed.

(** Whatever the key, the objects which a clustered dataset gives are those which a dataset gives,
    with the labels they had. *)
Theorem C51_select : forall (c : clustered) k, one_label_each c -> plain Obj V (base c) = false ->
  match getitem (base c) k with
  | Ok IEmpty => cluster_getitem c k = Ok CEmpty
  | Ok (IObject o) => cluster_getitem c k = Ok (CObject o)
  | Ok (IDataset d) => exists ps c', cluster_getitem c k = Ok (CDataset c') /\ base c' = d
                         /\ one_label_each c' /\ picks ps (labelled c) (labelled c')
  | Err e => cluster_getitem c k = Err e
  end.
Proof.
  intros c k L P; unfold DatasetModel.getitem, ClusterModel.cluster_getitem.
  destruct (objects (base c)) as [|o0 os] eqn:EO; [reflexivity|]; rewrite <- EO in *.
  assert (forall mask, length mask = length (objects (base c)) -> exists ps c', @Ok (citem Obj V) (CDataset (cluster_mask Obj V c mask)) = Ok (CDataset c')
            /\ base c' = pick_from_boolist Obj V (base c) mask /\ one_label_each c' /\ picks ps (labelled c) (labelled c')) as KM.
  { intros mask H; exists (positions 0 mask); eexists; split; [reflexivity|split; [reflexivity|]].
    assert (picks (positions 0 mask) (objects (base c)) (compress (objects (base c)) mask)) as P1
      by (apply compress_picks; [exact H|intros i x Hx; exact Hx]).
    assert (picks (positions 0 mask) (labels c) (compress (labels c) mask)) as P2
      by (apply compress_picks; [unfold one_label_each in L; congruence|intros i x Hx; exact Hx]).
    split.
    - unfold one_label_each; simpl; rewrite (picks_length _ _ _ _ P1), (picks_length _ _ _ _ P2); reflexivity.
    - apply picks_combine; assumption. }
  assert (exists ps c', @Ok (citem Obj V) (CDataset (cluster Obj V [] None)) = Ok (CDataset c')
            /\ base c' = {| plain := plain Obj V (base c); DatasetModel.objects := []; common := None; cached := None |}
            /\ one_label_each c' /\ picks ps (labelled c) (labelled c')) as K0.
  { exists []; eexists; split; [reflexivity|rewrite P; split; [reflexivity|split; [reflexivity|constructor]]]. }
  destruct k as [z|b e s|l|l| |].
  - destruct (py_get _ z) as [o|x]; reflexivity.
  - unfold pick_from_slice, cluster_slice; unfold pick_from_slice.
    destruct (slice_positions (length (objects (base c))) b e s) as [ps|x] eqn:ES; cbn [bind]; [|reflexivity].
    assert (slice_positions (length (labels c)) b e s = Ok ps) as ES' by (rewrite L; exact ES).
    destruct (match cached Obj V (base c) with Some m => _ | None => _ end) as [rows|x] eqn:ER; cbn [bind]; [|reflexivity].
    rewrite ES'; cbn [bind]; exists ps; eexists; split; [reflexivity|split; [reflexivity|]].
    assert (picks ps (objects (base c)) (take (objects (base c)) ps)) as P1 by (apply take_picks; intros p; eapply slice_in; exact ES).
    assert (picks ps (labels c) (take (labels c) ps)) as P2 by (apply take_picks; intros p; eapply slice_in; exact ES').
    split.
    + unfold one_label_each; simpl; rewrite (picks_length _ _ _ _ P1), (picks_length _ _ _ _ P2); reflexivity.
    + apply picks_combine; assumption.
  - destruct l as [|b l]; [exact K0|].
    destruct (Nat.eqb (length (b :: l)) (length (objects (base c)))) eqn:E; [|reflexivity].
    apply KM; apply Nat.eqb_eq; exact E.
  - destruct l as [|z l]; [exact K0|].
    destruct (indexlist_to_booleanlist Obj V (base c) (z :: l)) as [mask|x] eqn:E; cbn [bind]; [|reflexivity].
    apply KM; unfold indexlist_to_booleanlist in E; apply marks_spec in E as [E _]; rewrite E, map_length; reflexivity.
  - reflexivity.
  - reflexivity.
Qed.

(** With labels 0 ... n-1, and -1 for the outliers, the centroid of each dataset of the split is
    the first of its objects which none is nearer to the mean than. *)
Theorem C51_centroids : lists_set set_list -> lists_others others ->
  forall M D (mean : list Obj -> M) (distance : M -> Obj -> D) lt eqb, ordering lt eqb ->
  forall name (c : clustered) n, one_label_each c -> objects (base c) <> [] ->
  (forall z, z <> (-1)%Z -> (In z (labels c) <-> 0 <= z < Z.of_nat n)%Z) ->
  exists s cents, clustered_sublists name c = Ok s
    /\ real_centroids Obj V set_list others M D mean distance lt eqb name c = Ok cents
    /\ Forall2 (fun part cent => exists o, cent = Some o /\
                  nearest (fun o o' => lt (distance (mean (objects (snd part))) o') (distance (mean (objects (snd part))) o))
                          (objects (snd part)) o)
               (parts s) cents.
Proof.
  intros F G M D mean distance lt eqb O name c n L NE H.
  destruct (C51_split F G name c L) as (s & zs & E & ND & I & F2 & _ & LS).
  assert (Hl : split_labels s = others (labels c) ++ tail_of (labels c)).
  { rewrite (split_result set_list others F G name c L) in E; injection E as <-; reflexivity. }
  exists s; unfold real_centroids; rewrite E.
  destruct (objects (base c)) as [|o0 os] eqn:EO; [contradiction|]; cbn [bind].
  rewrite distances_dists.
  destruct (loop_ok mean distance lt eqb O (parts s)) with (ls := split_labels s) (cents := map (fun _ : Z => @None Obj) (split_labels s)) as (cents & E' & LC & FI).
  - revert F2; clear; intros F2 nd I; induction F2 as [|z part zs ps [H1 H2] F2 IH]; [contradiction|].
    destruct I as [<-|I]; [exact H2|apply IH; exact I].
  - rewrite map_length; exact LS.
  - (* every label is an index *)
    intros z J; rewrite <- LS, Hl in *.
    destruct (G (labels c)) as [NG IG].
    assert (Permutation (others (labels c)) (map Z.of_nat (seq 0 n))) as PN.
    { apply NoDup_Permutation; [exact NG|apply FinFun.Injective_map_NoDup; [intros x y; apply Nat2Z.inj|apply seq_NoDup]|].
      intros y; rewrite IG, in_map_iff; split.
      - intros [J1 J2]; apply (H y J2) in J1; exists (Z.to_nat y); rewrite in_seq; lia.
      - intros (k & <- & Jk); apply in_seq in Jk; split; [apply H; lia|lia]. }
    pose proof (Permutation_length PN) as LN; rewrite map_length, seq_length in LN.
    apply in_app_or in J as [J|J].
    + apply IG in J as [J1 J2]; apply (H z J2) in J1.
      rewrite py_index_nonneg; [discriminate|lia|rewrite app_length; lia].
    + rewrite app_length; unfold tail_of in *; destruct (has_outliers _); [|contradiction].
      destruct J as [<-|[]]; simpl length; unfold py_index.
      change (0 <=? -1)%Z with false; cbv iota; rewrite (proj2 (Z.leb_le _ _)) by lia; discriminate.
  - exists cents; split; [reflexivity|split; [exact E'|]].
    assert (forall p, p < length (parts s) -> filled mean distance lt (parts s) cents p) as All.
    { intros p Lp; apply FI; right.
      destruct (G (labels c)) as [NG IG].
      assert (length (others (labels c)) = n) as LN.
      { assert (Permutation (others (labels c)) (map Z.of_nat (seq 0 n))) as PN.
        { apply NoDup_Permutation; [exact NG|apply FinFun.Injective_map_NoDup; [intros x y; apply Nat2Z.inj|apply seq_NoDup]|].
          intros y; rewrite IG, in_map_iff; split.
          - intros [J1 J2]; apply (H y J2) in J1; exists (Z.to_nat y); rewrite in_seq; lia.
          - intros (k & <- & Jk); apply in_seq in Jk; split; [apply H; lia|lia]. }
        rewrite (Permutation_length PN), map_length, seq_length; reflexivity. }
      rewrite Hl, app_length, LN in LS; rewrite Hl.
      destruct (Nat.ltb_spec p n) as [Lt|Ge].
      - exists (Z.of_nat p); split.
        + apply in_or_app; left; apply IG; split; [apply H; lia|lia].
        + rewrite py_index_nonneg, Nat2Z.id by lia; reflexivity.
      - unfold tail_of in *; destruct (has_outliers (labels c)); simpl in LS; [|lia].
        exists (-1)%Z; split; [apply in_or_app; right; left; reflexivity|].
        unfold py_index; change (0 <=? -1)%Z with false; cbv iota; rewrite (proj2 (Z.leb_le _ _)) by lia; f_equal; lia. }
    revert LC All; clear; generalize (parts s); intros pp; revert cents.
    assert (forall ps0 cents0 (ps : list (string * dataset Obj V)) cents, length cents = length ps ->
              (forall p, p < length ps -> filled mean distance lt (ps0 ++ ps) (cents0 ++ cents) (length ps0 + p)) -> length ps0 = length cents0 ->
              Forall2 (fun part cent => exists o, cent = Some o /\ nearest (far mean distance lt (objects (snd part))) (objects (snd part)) o) ps cents) as K.
    { intros ps0 cents0 ps; revert ps0 cents0; induction ps as [|nd ps IH]; intros ps0 cents0 [|x cents] LC All LP; try discriminate; constructor.
      - destruct (All 0) as (nd' & o & H1 & H2 & H3); [simpl; lia|].
        rewrite Nat.add_0_r in *; rewrite nth_error_app2, Nat.sub_diag in H1 by lia.
        rewrite LP, nth_error_app2, Nat.sub_diag in H2 by lia; simpl in *.
        injection H1 as <-; injection H2 as ->; exists o; split; [reflexivity|exact H3].
      - apply (IH (ps0 ++ [nd]) (cents0 ++ [x])).
        + simpl in LC; lia.
        + intros p Lp; specialize (All (S p)); rewrite <- !app_assoc, app_length; simpl.
          replace (length ps0 + 1 + p) with (length ps0 + S p) by lia; apply All; simpl; lia.
        + rewrite !app_length; simpl; lia. }
    intros cents LC All; exact (K [] [] pp cents LC All eq_refl).
Qed.

(** A label which is not an index of the list of the clusters makes it raise IndexError. *)
Theorem C51_centroids_gap : lists_set set_list -> lists_others others ->
  forall M D (mean : list Obj -> M) (distance : M -> Obj -> D) lt eqb, ordering lt eqb ->
  forall name (c : clustered) z, one_label_each c -> In z (labels c) ->
  (Z.of_nat (length (set_list (labels c))) <= z \/ z < - Z.of_nat (length (set_list (labels c))))%Z ->
  real_centroids Obj V set_list others M D mean distance lt eqb name c = Err IndexError.
Proof.
  intros F G M D mean distance lt eqb O name c z L Iz B.
  destruct (C51_split F G name c L) as (s & zs & E & ND & I & F2 & _ & LS).
  assert (Hl : split_labels s = others (labels c) ++ tail_of (labels c)).
  { rewrite (split_result set_list others F G name c L) in E; injection E as <-; reflexivity. }
  unfold real_centroids; destruct (objects (base c)) as [|o0 os]; [reflexivity|].
  rewrite E; cbn [bind]; rewrite distances_dists.
  apply (loop_err mean distance lt eqb O (parts s)).
  - revert F2; clear; intros F2 nd I; induction F2 as [|z part zs ps [H1 H2] F2 IH]; [contradiction|].
    destruct I as [<-|I]; [exact H2|apply IH; exact I].
  - rewrite map_length; exact LS.
  - assert (length (parts s) = length (set_list (labels c))) as LP.
    { rewrite <- LS, Hl; apply (length_reported set_list others F G). }
    assert (1 <= length (set_list (labels c))) as L1.
    { destruct (set_list (labels c)) eqn:EU; [|simpl; lia].
      pose proof (proj2 (proj2 (F (labels c)) z) Iz) as J; rewrite EU in J; contradiction. }
    exists z; split.
    + rewrite Hl; apply in_or_app; left; apply G; split; [exact Iz|lia].
    + rewrite LP; unfold py_index; destruct (0 <=? z)%Z eqn:Ez; [apply Z.leb_le in Ez|apply Z.leb_gt in Ez].
      * rewrite (proj2 (Z.ltb_ge _ _)) by lia; reflexivity.
      * rewrite (proj2 (Z.leb_gt _ _)) by lia; reflexivity.
Qed.

(** With these labels again, the families of points are the positions of each label. *)
Theorem C51_families : lists_set set_list ->
  forall (c : clustered) n, (forall z, z <> (-1)%Z -> (In z (labels c) <-> 0 <= z < Z.of_nat n)%Z) ->
  exists zs, NoDup zs /\ (forall z, In z zs <-> In z (labels c))
    /\ Forall2 (fun z family =>
         fst family = (if (z =? -1)%Z then "Excluded" else "Cluster " ++ NilZero.string_of_int (Z.to_int z))%string
         /\ StronglySorted lt (snd family) /\ forall p, In p (snd family) <-> nth_error (labels c) p = Some z)
       zs (point_families c).
Proof.
  intros F c n H; exists (map Z.of_nat (seq 0 n) ++ (if memb Z.eqb (-1)%Z (labels c) then [(-1)%Z] else [])).
  assert (n_clusters set_list (labels c) = n) as EN.
  { unfold n_clusters; destruct (F (labels c)) as [ND I].
    assert (Permutation (filter (fun z => negb (z =? -1)%Z) (set_list (labels c))) (map Z.of_nat (seq 0 n))) as PN.
    { apply NoDup_Permutation; [apply NoDup_filter; exact ND|apply FinFun.Injective_map_NoDup; [intros x y; apply Nat2Z.inj|apply seq_NoDup]|].
      intros y; rewrite filter_In, I, negb_true_iff, Z.eqb_neq, in_map_iff; split.
      - intros [J1 J2]; apply (H y J2) in J1; exists (Z.to_nat y); rewrite in_seq; lia.
      - intros (k & <- & Jk); apply in_seq in Jk; split; [apply H; lia|lia]. }
    rewrite (Permutation_length PN), map_length, seq_length; reflexivity. }
  assert (forall z, StronglySorted lt (where_label (labels c) z) /\ forall p, In p (where_label (labels c) z) <-> nth_error (labels c) p = Some z) as W.
  { intros z; unfold where_label, enumerate; apply where_spec. }
  split; [|split].
  - destruct (memb _ _ _); [|rewrite app_nil_r; apply FinFun.Injective_map_NoDup; [intros x y; apply Nat2Z.inj|apply seq_NoDup]].
    apply (Permutation_NoDup (l := (-1)%Z :: map Z.of_nat (seq 0 n))); [apply Permutation_cons_append|].
    constructor; [rewrite in_map_iff; intros (k & E & _); lia|apply FinFun.Injective_map_NoDup; [intros x y; apply Nat2Z.inj|apply seq_NoDup]].
  - intros z; rewrite in_app_iff, in_map_iff; split.
    + intros [(k & <- & Jk)|J]; [apply in_seq in Jk; apply H; lia|].
      destruct (memb Z.eqb (-1)%Z (labels c)) eqn:EM; [|contradiction].
      destruct J as [<-|[]]; apply (memb_In Z.eqb Z.eqb_eq); exact EM.
    + intros J; destruct (Z.eq_dec z (-1)) as [->|N].
      * right; apply (memb_In Z.eqb Z.eqb_eq) in J; rewrite J; left; reflexivity.
      * left; apply (H z N) in J; exists (Z.to_nat z); rewrite in_seq; lia.
  - unfold ClusterModel.point_families; rewrite EN; apply Forall2_app.
    + clear EN; induction (seq 0 n) as [|k l IH]; simpl; constructor; [|exact IH].
      cbn [fst snd]; rewrite (proj2 (Z.eqb_neq _ _)) by lia; split; [reflexivity|apply W].
    + unfold has_outliers; destruct (memb _ _ _); constructor; [|constructor].
      split; [reflexivity|apply W].
Qed.

(** ** C52 *)
(** When a point is left after the sheets, building the clusters of the sheets ends. Each object is
    there once, labelled from 0 to [n]; the objects labelled [k] are the front of those which have
    at least this label. *)
Theorem C52_sheets : forall (std : list cell -> cell) n (os : list Obj) costs w,
  deviation std -> length os = length costs -> width w costs -> snd (exact_sheets std n os costs) <> [] ->
  exists placed : list ((Obj * list Q) * Z),
    (forall fuel, length os < fuel -> from_pareto_sheets Obj V fuel std n os costs
       = Ok (map (fun q => IObject (fst (fst q))) placed, map snd placed))
    /\ Permutation (map fst placed) (combine os costs)
    /\ (forall q, In q placed -> (0 <= snd q <= Z.of_nat n)%Z)
    /\ forall k, k < n -> map fst (filter (fun q => snd q =? Z.of_nat k)%Z placed) <> []
         /\ front (map fst (filter (fun q => Z.of_nat k <=? snd q)%Z placed))
                  (map fst (filter (fun q => snd q =? Z.of_nat k)%Z placed)).
Proof.
  intros std n os costs w DV L W NR.
  destruct (C33_sheets Obj std n os costs w DV L W) as (sheets & rest & E & Ln & P & FR).
  rewrite E in NR; cbn [snd] in NR.
  assert (rest <> []) as NR' by (intros ->; apply NR; reflexivity).
  assert (forall k s, nth_error sheets k = Some s -> s <> []) as NS.
  { intros k s Es ->; destruct rest as [|q rest]; [contradiction|].
    destruct (FR k [] Es) as (_ & _ & H); destruct (H q) as (p & [] & _).
    apply in_or_app; right; left; reflexivity. }
  exists (tag 0 sheets rest); split; [|split; [|split]].
  - intros fuel LF; unfold from_pareto_sheets; rewrite E; unfold from_sheets, enumerate; rewrite map_length.
    assert (forall s, In s sheets -> length s <= length os) as LS.
    { intros s I; apply Permutation_length in P; rewrite app_length, combine_length in P.
      apply in_split in I as (l1 & l2 & ->); rewrite concat_app in P; simpl in P; rewrite !app_length in P; lia. }
    assert (length rest <= length os) as LR.
    { apply Permutation_length in P; rewrite app_length, combine_length in P; lia. }
    pose proof (sheets_loop (V := V) fuel (map (map fst) sheets) 0 [] []) as SL.
    unfold sheet_step in SL; rewrite SL.
    + cbn [bind app]; rewrite (iterate_all (map fst rest) fuel); [|intros N; apply NR'; destruct rest; [reflexivity|discriminate]|rewrite map_length; lia].
      cbn [bind]; rewrite tag_snd; f_equal; f_equal.
      * rewrite <- map_app, <- (map_map (fun q => fst q) (fun p => IObject (fst p))), tag_fst, <- (map_map fst (fun o => IObject o)); f_equal.
        rewrite map_app, concat_map; reflexivity.
      * cbn [make DatasetModel.objects]; rewrite !map_length; f_equal.
        f_equal; clear; generalize 0; induction sheets as [|s sheets IH]; intros b; simpl; [reflexivity|].
        rewrite map_length; f_equal; apply IH.
    + intros s I; apply in_map_iff in I as (s' & <- & I); split.
      * apply In_nth_error in I as (k & Ek); specialize (NS k s' Ek); destruct s'; [contradiction|discriminate].
      * rewrite map_length; specialize (LS s' I); lia.
  - rewrite tag_fst; exact P.
  - intros q I; apply tag_range in I; lia.
  - intros k Lk; destruct (nth_error sheets k) as [s|] eqn:Es; [|apply nth_error_None in Es; lia].
    pose proof (tag_at _ sheets 0 k rest s Es) as T1; pose proof (tag_from _ sheets 0 k rest) as T2; simpl in T1, T2.
    rewrite T1, T2 by lia; split; [exact (NS k s Es)|exact (FR k s Es)].
Qed.

(** When no point is left it never ends, however long one waits. *)
Theorem C52_never_ends : forall (std : list cell -> cell) n (os : list Obj) costs fuel,
  snd (exact_sheets std n os costs) = [] -> from_pareto_sheets Obj V fuel std n os costs = Err OutOfFuel.
Proof.
  intros std n os costs fuel E; unfold from_pareto_sheets.
  destruct (exact_sheets std n os costs) as [sheets rest]; cbn [snd] in E; subst rest.
  unfold from_sheets, enumerate; rewrite map_length.
  destruct (sheets_loop_cases (V := V) fuel sheets 0 ([], [])) as [H|([r1 r2] & H)]; unfold sheet_step in H; rewrite H; cbn [bind]; [reflexivity|].
  rewrite iterate_empty by reflexivity; reflexivity.
Qed.

(** That is the case as soon as there are as many sheets as objects. *)
Theorem C52_too_many_sheets : forall (std : list cell -> cell) n (os : list Obj) costs w,
  deviation std -> length os = length costs -> width w costs -> length os <= n ->
  forall fuel, from_pareto_sheets Obj V fuel std n os costs = Err OutOfFuel.
Proof.
  intros std n os costs w DV L W LN fuel; apply C52_never_ends.
  destruct (C33_sheets Obj std n os costs w DV L W) as (sheets & rest & E & Ln & P & FR).
  rewrite E; cbn [snd]; destruct rest as [|q rest]; [reflexivity|exfalso].
  assert (forall k s, nth_error sheets k = Some s -> s <> []) as NS.
  { intros k s Es ->; destruct (FR k [] Es) as (_ & _ & H); destruct (H q) as (p & [] & _).
    apply in_or_app; right; left; reflexivity. }
  apply Permutation_length in P; rewrite app_length, combine_length in P; simpl in P.
  assert (length sheets <= length (concat sheets)) as K.
  { revert NS; clear; induction sheets as [|s sheets IH]; intros NS; simpl; [lia|].
    rewrite app_length; specialize (IH (fun k s' E => NS (S k) s' E)).
    pose proof (NS 0 s eq_refl); destruct s; [contradiction|simpl; lia]. }
  lia.
Qed.
End Props.

(** ** Examples and refutations *)
(** The order of a set of small integers in CPython: by hash modulo the size of the table, the hash
    of -1 being -2 (for labels without collision). *)
Definition slot (size z : Z) : Z := ((if (z =? -1)%Z then -2 else z) mod size)%Z.
Fixpoint insert_slot (size z : Z) (l : list Z) : list Z :=
  match l with
  | [] => [z]
  | y :: l' => if (slot size z <=? slot size y)%Z then z :: l else y :: insert_slot size z l'
  end.
Definition ex_set (size : Z) (l : list Z) : list Z := fold_right (insert_slot size) [] (dedup Z.eqb [] l).
Definition ex_others (size : Z) (l : list Z) : list Z := filter (fun z => negb (z =? -1)%Z) (ex_set size l).
Lemma ex_set_perm : forall size l, Permutation (ex_set size l) (dedup Z.eqb [] l).
Proof.
  intros size l; unfold ex_set; induction (dedup Z.eqb [] l) as [|z m IH]; simpl; [reflexivity|].
  assert (forall k, Permutation (insert_slot size z k) (z :: k)) as K.
  { induction k as [|y k IHk]; simpl; [reflexivity|].
    destruct (_ <=? _)%Z; [reflexivity|rewrite IHk; apply perm_swap]. }
  rewrite K, IH; reflexivity.
Qed.
Lemma ex_set_spec : forall size, lists_set (ex_set size).
Proof.
  intros size l; split.
  - apply (Permutation_NoDup (Permutation_sym (ex_set_perm size l))); apply (dedup_NoDup Z.eqb Z.eqb_eq).
  - intros z; split; intros I.
    + apply (Permutation_in _ (ex_set_perm size l)) in I; apply (dedup_In Z.eqb Z.eqb_eq) in I; tauto.
    + apply (Permutation_in _ (Permutation_sym (ex_set_perm size l))); apply (dedup_In Z.eqb Z.eqb_eq); simpl; tauto.
Qed.
Lemma ex_others_spec : forall size, lists_others (ex_others size).
Proof.
  intros size l; destruct (ex_set_spec size l) as [ND I]; split; [apply NoDup_filter; exact ND|].
  intros z; unfold ex_others; rewrite filter_In, I, negb_true_iff, Z.eqb_neq; reflexivity.
Qed.
Notation ex_cluster := (cluster ex_car Z).
Notation ex_sublists size := (clustered_sublists ex_car Z (ex_set size) (ex_others size)).
Notation ex_part_names s := (map (fun part => (fst part, map c_name (objects ex_car Z (snd part)))) (parts ex_car Z s)).

(** The reported labels may be those of other clusters: the set of -1 and 7 begins with -1. *)
Theorem C51_labels_refuted : ~ (forall set_list others name (c : clustered ex_car Z), lists_set set_list -> lists_others others ->
  one_label_each c -> exists s, clustered_sublists ex_car Z set_list others name c = Ok s
    /\ Forall2 (fun z part => objects ex_car Z (snd part) = members z (labelled c)) (split_labels _ _ s) (parts _ _ s)).
Proof.
  intros H; destruct (H (ex_set 8) (ex_others 8) "cars" (ex_cluster [ex_a; ex_b] (Some [7; -1]%Z))
    (ex_set_spec 8) (ex_others_spec 8) eq_refl) as (s & E & F).
  injection E as <-; inversion F as [|? ? ? ? F1 _]; subst; discriminate.
Qed.

(** The clusters are named in alphabetical order of their labels: beyond ten clusters, after the
    label of another one. *)
Definition ex_eleven : clustered ex_car Z := ex_cluster (repeat ex_a 11) (Some (map Z.of_nat (seq 0 11))).
Theorem C51_names_refuted : ~ (forall set_list others name (c : clustered ex_car Z) n, lists_set set_list -> lists_others others ->
  one_label_each c -> set_list (labels _ _ c) = map Z.of_nat (seq 0 n) -> others (labels _ _ c) = map Z.of_nat (seq 0 n) ->
  exists s, clustered_sublists ex_car Z set_list others name c = Ok s
    /\ Forall2 (fun z part => fst part = (name ++ "_" ++ NilZero.string_of_int (Z.to_int z))%string) (split_labels _ _ s) (parts _ _ s)).
Proof.
  intros H; destruct (H (ex_set 32) (ex_others 32) "cars" ex_eleven 11 (ex_set_spec 32) (ex_others_spec 32) eq_refl eq_refl eq_refl) as (s & E & F).
  injection E as <-; inversion F as [|? ? ? ? _ F1]; subst; inversion F1 as [|? ? ? ? _ F2]; subst; inversion F2 as [|? ? ? ? F3 _]; subst; discriminate.
Qed.

(** Sorting moves the objects, not their labels. *)
Definition ex_argsort (vs : list Z) : list nat :=
  match vs with [x; y] => if (y <? x)%Z then [1; 0] else [0; 1] | _ => seq 0 (length vs) end.
Notation ex_sort := (cluster_sort ex_car Z c_class c_features c_vector ex_attr ex_argsort).
Theorem C51_sort_refuted : ~ (forall (c c' : clustered ex_car Z) k ascend, one_label_each c ->
  ex_sort c k ascend = Ok c' -> Permutation (labelled c') (labelled c)).
Proof.
  intros H; specialize (H (ex_cluster [ex_a; ex_b] (Some [0; 1]%Z)) _ (SStr "mpg") true eq_refl eq_refl); simpl in H.
  pose proof (Permutation_in (ex_b, 0%Z) H (or_introl eq_refl)) as I; simpl in I.
  destruct I as [I|[I|[]]]; discriminate.
Qed.

(** A point whose label is beyond the number of clusters is in no family. *)
Theorem C51_families_refuted : ~ (forall set_list (c : clustered ex_car Z) p z, lists_set set_list -> nth_error (labels _ _ c) p = Some z ->
  exists family, In family (point_families ex_car Z set_list c) /\ In p (snd family)).
Proof.
  intros H; destruct (H (ex_set 8) (ex_cluster [ex_a; ex_b] (Some [0; 2]%Z)) 1 2%Z (ex_set_spec 8) eq_refl) as (f & I & J).
  simpl in I; destruct I as [<-|[<-|[]]]; simpl in J; intuition discriminate.
Qed.

Print Assumptions C51_split.
Print Assumptions C51_labels.
Print Assumptions C51_names.
Print Assumptions C51_merge.
Print Assumptions C51_select.
Print Assumptions C51_centroids.
Print Assumptions C51_centroids_gap.
Print Assumptions C51_families.
Print Assumptions C51_labels_refuted.
Print Assumptions C51_names_refuted.
Print Assumptions C51_sort_refuted.
Print Assumptions C51_families_refuted.
Print Assumptions C52_sheets.
Print Assumptions C52_never_ends.
Print Assumptions C52_too_many_sheets.

Definition ex_labelled : clustered ex_car Z := ex_cluster [ex_a; ex_b; ex_c; ex_bike; ex_truck] (Some [1; 0; -1; 1; 0]%Z).
Example C51_split_ex : match ex_sublists 8 "cars" ex_labelled with
  | Ok s => ex_part_names s = [("cars_0", ["b"; "truck"]); ("cars_1", ["a"; "bike"]); ("cars_outliers", ["c"])]
            /\ split_labels _ _ s = [0; 1; -1]%Z /\ split_name _ _ s = "cars_split"
  | Err _ => False end.
Proof. split; [|split]; reflexivity. Qed.
Example C51_labels_ex : match ex_sublists 8 "cars" (ex_cluster [ex_a; ex_b] (Some [7; -1]%Z)) with
  | Ok s => ex_part_names s = [("cars_7", ["b"]); ("cars_outliers", ["a"])] /\ split_labels _ _ s = [7; -1]%Z
  | Err _ => False end.
Proof. split; reflexivity. Qed.
Example C51_names_ex : match ex_sublists 32 "c" ex_eleven with
  | Ok s => map fst (parts _ _ s) = ["c_0"; "c_1"; "c_10"; "c_2"; "c_3"; "c_4"; "c_5"; "c_6"; "c_7"; "c_8"; "c_9"]
            /\ split_labels _ _ s = [0; 1; 2; 3; 4; 5; 6; 7; 8; 9; 10]%Z
  | Err _ => False end.
Proof. split; reflexivity. Qed.
Example C51_merge_ex : match ex_sublists 8 "cars" ex_labelled with
  | Ok s => match merge_sublists ex_car Z c_class c_features s with
            | Ok c => map (fun q => (c_name (fst q), snd q)) (labelled c) = [("b", 0); ("truck", 0); ("a", 1); ("bike", 1); ("c", -1)]%Z
            | Err _ => False end
  | Err _ => False end.
Proof. reflexivity. Qed.
Notation ex_select k := (match cluster_getitem ex_car Z ex_labelled k with
  | Ok (CDataset c) => map (fun q => (c_name (fst q), snd q)) (labelled c) | _ => [] end).
Example C51_select_ex : ex_select (KBools [true; false; true; false; false]) = [("a", 1); ("c", -1)]%Z
  /\ ex_select (KInts [-1; 1]%Z) = [("b", 0); ("truck", 0)]%Z
  /\ ex_select (KSlice None None (Some (-2)%Z)) = [("truck", 0); ("c", -1); ("a", 1)]%Z
  /\ cluster_getitem ex_car Z ex_labelled (KBools [true]) = Err ValueError.
Proof. repeat split; reflexivity. Qed.
(** the mean and the distances on the weight *)
Definition ex_weight (o : ex_car) : Z := match ex_attr o "weight" with Some z => z | None => 0%Z end.
Definition ex_mean (l : list ex_car) : Z := (fold_right (fun o z => ex_weight o + z) 0 l / Z.of_nat (length l))%Z.
Definition ex_distance (m : Z) (o : ex_car) : Z := Z.abs (ex_weight o - m).
Notation ex_centroids size := (real_centroids ex_car Z (ex_set size) (ex_others size) Z Z ex_mean ex_distance Z.ltb Z.eqb "cars").
Lemma ex_ordering : ordering Z.ltb Z.eqb.
Proof.
  repeat split; intros; rewrite ?Z.ltb_irrefl, ?Z.eqb_refl; try reflexivity.
  - apply Z.ltb_lt in H, H0; apply Z.ltb_lt; lia.
  - apply Z.eqb_eq in H; subst; reflexivity.
  - apply Z.eqb_neq in H; rewrite !Z.ltb_lt; lia.
Qed.
Definition ex_three : clustered ex_car Z := ex_cluster [ex_a; ex_b; ex_c; ex_bike; ex_truck] (Some [0; 0; 0; -1; 1]%Z).
Example C51_centroids_ex : ex_centroids 8 ex_three = Ok [Some ex_a; Some ex_truck; Some ex_bike].
Proof. reflexivity. Qed.
Example C51_centroids_gap_ex : ex_centroids 8 (ex_cluster [ex_a; ex_b] (Some [0; 2]%Z)) = Err IndexError.
Proof. reflexivity. Qed.
Example C51_families_ex : point_families ex_car Z (ex_set 8) ex_labelled = [("Cluster 0", [1; 4]); ("Cluster 1", [0; 3]); ("Excluded", [2])].
Proof. reflexivity. Qed.
Example C51_sort_ex : match ex_sort (ex_cluster [ex_a; ex_b] (Some [0; 1]%Z)) (SStr "mpg") true with
  | Ok c => map (fun q => (c_name (fst q), snd q)) (labelled c) = [("b", 0); ("a", 1)]%Z
  | Err _ => False end.
Proof. reflexivity. Qed.
Example C52_sheets_ex : from_pareto_sheets nat Z 6 spread 2 ex_cars ex_costs
  = Ok (map (fun n => IObject n) [10; 11; 14; 13; 12], [0; 0; 0; 1; 2]%Z).
Proof. reflexivity. Qed.
Example C52_never_ends_ex : forall fuel, from_pareto_sheets nat Z fuel spread 3 ex_cars ex_costs = Err OutOfFuel.
Proof. intros fuel; apply C52_never_ends; reflexivity. Qed.
Example C52_too_many_sheets_ex : forall fuel, from_pareto_sheets nat Z fuel spread 1 [7] [[1; 2]%Q] = Err OutOfFuel.
Proof. intros fuel; apply (C52_too_many_sheets _ _ _ _ _ _ 2 spread_deviation); [reflexivity|repeat constructor|simpl; lia]. Qed.

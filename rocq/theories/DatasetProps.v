(** C29, C30, C31: selection, concatenation and sorting of datasets; the costs of C32. *)
From Coq Require Import ZArith Bool String Lia Sorted Permutation List.
From Verif Require Import Base BaseProofs DatasetModel DatasetSpec DatasetProofs.
Import ListNotations.
Open Scope string_scope.
Open Scope list_scope.
Open Scope nat_scope.

Section Props.
Variable Obj V : Type.
Variable cls : Obj -> nat.
Variable vector_features : Obj -> list string.
Variable to_vector : Obj -> list V.
Variable getattr : Obj -> string -> option V.
Variable argsort : list V -> list nat.
Notation dataset := (dataset Obj V).
Notation objects := (objects Obj V).
Notation cached := (cached Obj V).
Notation common := (common Obj V).
Notation plain := (plain Obj V).
Notation compute_common := (compute_common Obj cls vector_features).
Notation common_attributes := (common_attributes Obj V cls vector_features).
Notation reads := (reads vector_features to_vector).
Notation advertised := (advertised vector_features cls).
Notation aligned := (aligned vector_features to_vector cls).
Notation sound := (sound vector_features to_vector cls).
Notation well_described := (well_described vector_features to_vector cls).
Notation getitem := (getitem Obj V).
Notation add := (add Obj V cls vector_features).
Notation sort := (sort Obj V cls vector_features to_vector getattr argsort).
Notation matrix := (matrix Obj V cls vector_features to_vector).
Notation key_value := (key_value vector_features to_vector cls getattr).

(** ** C29 *)
(** A mask of the right length keeps the marked objects, in order; another one is rejected. *)
Theorem C29_mask : forall (d : dataset) mask, aligned d -> objects d <> [] -> mask <> [] ->
  (length mask = length (objects d) -> exists ps d',
     getitem d (KBools mask) = Ok (IDataset d') /\ restricted ps d d'
     /\ StronglySorted lt ps /\ forall p, In p ps <-> nth_error mask p = Some true)
  /\ (length mask <> length (objects d) -> getitem d (KBools mask) = Err ValueError).
Proof.
  intros d mask A NE NM; unfold DatasetModel.getitem.
  destruct (objects d) as [|o0 l0] eqn:EO; [contradiction|rewrite <- EO in *].
  destruct mask as [|b mask]; [contradiction|]; split; intros L.
  - rewrite (proj2 (Nat.eqb_eq _ _) L); exists (positions 0 (b :: mask)); eexists; split; [reflexivity|].
    split; [eapply boolist_restricted; eassumption|split; [apply positions_sorted|]].
    intros p; rewrite positions_spec, Nat.sub_0_r; split; [tauto|intros H; split; [lia|exact H]].
  - rewrite (proj2 (Nat.eqb_neq _ _) L); reflexivity.
Qed.

(** A list of indices keeps the objects it designates, once and in the order of the dataset; an
    index out of range raises IndexError. *)
Theorem C29_indices : forall (d : dataset) zs, aligned d -> objects d <> [] -> zs <> [] ->
  ((forall z, In z zs -> exists p, designates (length (objects d)) z p) -> exists ps d',
     getitem d (KInts zs) = Ok (IDataset d') /\ restricted ps d d'
     /\ StronglySorted lt ps /\ forall p, In p ps <-> exists z, In z zs /\ designates (length (objects d)) z p)
  /\ ((exists z, In z zs /\ forall p, ~ designates (length (objects d)) z p) -> getitem d (KInts zs) = Err IndexError).
Proof.
  intros d zs A NE NZ; unfold DatasetModel.getitem.
  destruct (objects d) as [|o0 l0] eqn:EO; [contradiction|rewrite <- EO in *].
  destruct zs as [|z0 zs0]; [contradiction|]; set (zs := z0 :: zs0) in *; split; intros H; unfold indexlist_to_booleanlist.
  - assert (length (map (fun _ : Obj => false) (objects d)) = length (objects d)) as EL by apply map_length.
    destruct (marks_ok zs (map (fun _ => false) (objects d))) as (mask & E); [rewrite EL; exact H|].
    fold zs; rewrite E; simpl.
    destruct (marks_spec zs _ mask E) as [L M]; rewrite EL in *.
    exists (positions 0 mask); eexists; split; [reflexivity|].
    split; [eapply boolist_restricted; eassumption|split; [apply positions_sorted|]].
    intros p; rewrite positions_spec, Nat.sub_0_r, M; split.
    + intros [_ [F|F]]; [exfalso|exact F].
      apply nth_error_In, in_map_iff in F as (? & F & _); discriminate.
    + intros F; split; [lia|right; exact F].
  - fold zs; rewrite marks_err; [reflexivity|].
    replace (length (map (fun _ : Obj => false) (objects d))) with (length (objects d)) by (symmetry; apply map_length); exact H.
Qed.

(** So it returns the designated objects for increasing lists, as documented. *)
Theorem C29_increasing : forall (d : dataset) ps, aligned d -> ps <> [] -> StronglySorted lt ps ->
  (forall p, In p ps -> p < length (objects d)) ->
  exists d', getitem d (KInts (map Z.of_nat ps)) = Ok (IDataset d') /\ restricted ps d d'.
Proof.
  intros d ps A NP S B.
  assert (objects d <> []) as NE.
  { intros E; destruct ps as [|p ps]; [contradiction|]; specialize (B p (or_introl eq_refl)); rewrite E in B; simpl in B; lia. }
  assert (map Z.of_nat ps <> []) as NZ by (destruct ps; [contradiction|discriminate]).
  destruct (proj1 (C29_indices d _ A NE NZ)) as (ps' & d' & E & R & S' & M).
  - intros z I; apply in_map_iff in I as (p & <- & I); exists p; split; [apply B; exact I|left; reflexivity].
  - exists d'; split; [exact E|].
    assert (ps = ps') as ->; [|exact R].
    apply sorted_unique; [exact S|exact S'|].
    intros p; rewrite M; split.
    + intros I; exists (Z.of_nat p); split; [apply in_map; exact I|split; [apply B; exact I|left; reflexivity]].
    + intros (z & I & L & D); apply in_map_iff in I as (q & <- & I); pose proof (B q I).
      replace p with q by lia; exact I.
Qed.

(** An integer designates an object; out of range it raises IndexError. *)
Theorem C29_integer : forall (d : dataset) z, objects d <> [] ->
  (forall p, designates (length (objects d)) z p -> exists o, nth_error (objects d) p = Some o /\ getitem d (KInt z) = Ok (IObject o))
  /\ ((forall p, ~ designates (length (objects d)) z p) -> getitem d (KInt z) = Err IndexError).
Proof.
  intros d z NE; unfold DatasetModel.getitem, py_get.
  destruct (objects d) as [|o0 l0] eqn:EO; [contradiction|rewrite <- EO in *]; split.
  - intros p D; rewrite (proj2 (py_index_designates _ _ _) D).
    destruct (nth_error (objects d) p) as [o|] eqn:E; [exists o; split; reflexivity|].
    exfalso; apply nth_error_None in E; destruct D; lia.
  - intros N; rewrite (proj2 (py_index_none _ _) N); reflexivity.
Qed.

(** A slice takes the objects and the rows at the same positions; with non negative bounds and no
    step, the ones from the first bound up to the second excluded. *)
Theorem C29_slice : forall (d : dataset) b e s, aligned d -> objects d <> [] -> s <> Some 0%Z ->
  exists ps d', getitem d (KSlice b e s) = Ok (IDataset d') /\ restricted ps d d'
    /\ forall i j, b = Some (Z.of_nat i) -> e = Some (Z.of_nat j) -> s = None ->
         objects d' = firstn (j - i) (skipn i (objects d)).
Proof.
  intros d b e s A NE S0; unfold DatasetModel.getitem.
  destruct (objects d) as [|o0 l0] eqn:EO; [contradiction|rewrite <- EO in *].
  destruct (slice_restricted Obj V cls vector_features to_vector d b e s A S0) as (ps & d' & E & E' & R).
  rewrite E'; exists ps, d'; split; [reflexivity|split; [exact R|]].
  intros i j -> -> ->; destruct R as [P _].
  set (n := length (objects d)) in *.
  assert (ps = seq i (Nat.min j n - i)) as EP.
  { unfold slice_positions in E; simpl in E; injection E as <-.
    set (start := clip (Z.of_nat n) (Z.of_nat i) 0 (Z.of_nat n)); set (stop := clip (Z.of_nat n) (Z.of_nat j) 0 (Z.of_nat n)).
    assert (start = Z.of_nat (Nat.min i n)) as Es.
    { unfold start; rewrite clip_nonneg; lia. }
    assert (stop = Z.of_nat (Nat.min j n)) as Ee.
    { unfold stop; rewrite clip_nonneg; lia. }
    assert (forall k p, nth_error (range n start stop 1) k = Some p <-> nth_error (seq i (Nat.min j n - i)) k = Some p) as K.
    { intros k p; rewrite range_up by lia.
      destruct (Nat.ltb_spec k (Nat.min j n - i)).
      - rewrite (nth_error_nth' _ 0) by (rewrite seq_length; lia); rewrite seq_nth by lia; split.
        + intros [H1 H2]; f_equal; lia.
        + intros H1; injection H1 as <-; lia.
      - rewrite (proj2 (nth_error_None _ _)) by (rewrite seq_length; lia); split; [intros [H1 H2]; exfalso; lia|discriminate]. }
    clear - K; revert K; generalize (range n start stop 1) (seq i (Nat.min j n - i)); clear; intros l m K.
    revert m K; induction l as [|x l IH]; intros m K.
    - destruct m as [|y m]; [reflexivity|discriminate (proj2 (K 0 y) eq_refl)].
    - destruct m as [|y m]; [discriminate (proj1 (K 0 x) eq_refl)|].
      pose proof (proj1 (K 0 x) eq_refl) as H; simpl in H; injection H as <-; f_equal; apply IH; intros k p; exact (K (S k) p). }
  rewrite EP in P; eapply picks_fun; [exact P|].
  assert (forall (l l0 : list Obj) i j, (forall k, nth_error l0 (i + k) = nth_error l k) ->
            picks (seq i (Nat.min j (i + length l) - i)) l0 (firstn (j - i) l)) as K.
  { clear; induction l as [|x l IH]; intros l0 i j H.
    - rewrite firstn_nil; replace (Nat.min j (i + length (@nil Obj)) - i) with 0 by (simpl; lia); constructor.
    - destruct (j - i) as [|n] eqn:Ej.
      + replace (Nat.min j (i + length (x :: l)) - i) with 0 by lia; constructor.
      + replace (Nat.min j (i + length (x :: l)) - i) with (S (Nat.min j (S i + length l) - S i)) by (simpl; lia).
        simpl; constructor; [rewrite <- (Nat.add_0_r i), H; reflexivity|].
        replace n with (j - S i) by lia; apply IH; intros k; replace (S i + k) with (i + S k) by lia; rewrite H; reflexivity. }
  destruct (Nat.le_gt_cases i n) as [Li|Li].
  - assert (n = i + length (skipn i (objects d))) as -> by (rewrite skipn_length; fold n; lia).
    apply K; intros k; clear; revert k; generalize (objects d); induction i as [|i IH]; intros l k; [reflexivity|].
    destruct l as [|x l]; simpl; [destruct k; reflexivity|apply IH].
  - replace (Nat.min j n - i) with 0 by lia; rewrite skipn_all2 by (fold n; lia); rewrite firstn_nil; constructor.
Qed.

(** Whatever the key, an empty dataset gives an empty python list, even for an integer. *)
Theorem C29_empty : forall (d : dataset) k, objects d = [] -> getitem d k = Ok IEmpty.
Proof. intros d k E; unfold DatasetModel.getitem; rewrite E; reflexivity. Qed.

(** A selection is sound when the dataset is. *)
Theorem C29_sound : forall (d : dataset) k d', sound d -> well_described (objects d) ->
  getitem d k = Ok (IDataset d') -> sound d' /\ incl (objects d') (objects d).
Proof.
  intros d k d' S W H.
  destruct (objects d) as [|o0 l0] eqn:EO.
  - unfold DatasetModel.getitem in H; rewrite EO in H; discriminate.
  - assert (objects d <> []) as NE by (rewrite EO; discriminate); rewrite <- EO in *.
    eapply getitem_restricted in H as [(_ & E & EC & Ec)|(ps & R)]; [| |exact (proj1 (proj2 S))|exact NE].
    + split; [|intros x I; rewrite E in I; contradiction].
      split; [intros o a I; rewrite E in I; contradiction|split].
      * intros m Em; congruence.
      * intros N; congruence.
    + split; [eapply restricted_sound; eassumption|intros x I; destruct R as [P _]; eapply picks_in; eassumption].
Qed.

(** ** C30 *)
(** A new dataset is sound, and its common attributes are those that all objects have. *)
Theorem C30_make : forall l, well_described l ->
  sound (make Obj V l) /\ forall a, In a (common_attributes (make Obj V l)) <-> l <> [] /\ forall o, In o l -> In a (vector_features o).
Proof.
  intros l W; assert (forall a, In a (compute_common l) <-> l <> [] /\ forall o, In o l -> In a (vector_features o)) as K
    by (intros a; eapply compute_common_in; eassumption).
  split; [split; [|split]|exact K].
  - intros o a Io Ia; apply K in Ia as [_ Ia]; apply Ia; exact Io.
  - intros m E; discriminate.
  - intros _ E; exfalso; apply E; reflexivity.
Qed.

(** The matrix of a sound dataset has a row per object and a column per common attribute. *)
Theorem C30_matrix : forall d, sound d -> well_described (objects d) ->
  exists m d', matrix d = Ok (m, d') /\ objects d' = objects d /\ common_attributes d' = common_attributes d /\ sound d'
    /\ Forall2 (fun o row => Forall2 (reads o) (common_attributes d) row) (objects d) m.
Proof.
  intros d S W; destruct (matrix_sound _ _ _ _ _ d S W) as (m & d' & E & EO & EC & _ & _ & F & S').
  exists m, d'; auto.
Qed.

(** Datasets with the same common attributes add up: all objects in order, the same common
    attributes, and an aligned matrix. *)
Theorem C30_same_attributes : forall d other, sound d -> sound other -> well_described (objects d ++ objects other) ->
  plain d = true -> plain other = true -> common_attributes d = common_attributes other ->
  exists s, add d other = Ok s /\ objects s = objects d ++ objects other /\ common_attributes s = common_attributes d
    /\ sound s /\ (fresh vector_features cls d -> fresh vector_features cls other -> fresh vector_features cls s)
    /\ (cached d <> None -> cached other <> None -> cached s <> None).
Proof.
  intros d other (A & L & ST) (A' & L' & ST') W P P' E; unfold DatasetModel.add; rewrite P, P'; simpl.
  rewrite (proj2 (forallb_incl _ _)) by (rewrite E; apply incl_refl).
  eexists; split; [reflexivity|]; simpl; split; [reflexivity|split; [reflexivity|split; [split; [|split]|split]]].
  - intros o a Io Ia; simpl in *; unfold DatasetModel.common_attributes at 1 in Ia; simpl in Ia.
    apply in_app_or in Io as [Io|Io]; [apply A; assumption|apply A'; [exact Io|rewrite <- E; exact Ia]].
  - intros m Em; simpl in Em; unfold DatasetModel.common_attributes at 1; simpl.
    destruct (cached d) as [m1|] eqn:E1; [|discriminate]; destruct (cached other) as [m2|] eqn:E2; [|discriminate].
    injection Em as <-; apply Forall2_app; [apply L; exact E1|rewrite E; apply L'; exact E2].
  - intros _ _; simpl; discriminate.
  - intros F F'; right; simpl; f_equal.
    assert (common_attributes d = compute_common (objects d)) as Ed
      by (unfold DatasetModel.common_attributes; destruct F as [-> | ->]; reflexivity).
    assert (common_attributes other = compute_common (objects other)) as Eo
      by (unfold DatasetModel.common_attributes; destruct F' as [-> | ->]; reflexivity).
    rewrite Ed; symmetry; eapply compute_common_app; [exact W|congruence].
  - destruct (cached d); [|congruence]; destruct (cached other); [discriminate|congruence].
Qed.

(** In general all objects are kept in order, and the common attributes of the sum are right
    exactly when the second dataset has an attribute that the first has not, or all its objects
    have the common attributes of the first. *)
Theorem C30_attributes : forall d other, sound d -> sound other -> well_described (objects d ++ objects other) ->
  plain d = true -> plain other = true ->
  exists s, add d other = Ok s /\ objects s = objects d ++ objects other /\
    (advertised s <-> (incl (common_attributes other) (common_attributes d) ->
                       forall o, In o (objects other) -> incl (common_attributes d) (vector_features o))).
Proof.
  intros d other (A & L & ST) (A' & L' & ST') W P P'; unfold DatasetModel.add; rewrite P, P'; simpl.
  destruct (forallb _ (common_attributes other)) eqn:F; (eexists; split; [reflexivity|split; [reflexivity|]]).
  - apply forallb_incl in F; split.
    + intros AD _ o Io a Ia; apply AD; [simpl; apply in_or_app; right; exact Io|exact Ia].
    + intros H o a Io Ia; simpl in Io; unfold DatasetModel.common_attributes at 1 in Ia; simpl in Ia.
      apply in_app_or in Io as [Io|Io]; [apply A; assumption|apply (H F o Io); exact Ia].
  - split; [|intros _].
    + intros _ I; exfalso; apply forallb_incl in I; congruence.
    + destruct (C30_make (objects d ++ objects other) W) as [[AD _] _]; exact AD.
Qed.

(** Only plain datasets can be added. *)
Theorem C30_subclass : forall d other, plain d = false \/ plain other = false -> add d other = Err TypeError.
Proof. intros d other [H|H]; unfold DatasetModel.add; rewrite H; [reflexivity|rewrite orb_true_r; reflexivity]. Qed.

(** ** C31 *)
(** Sorting permutes the objects into the order of the key, and keeps the dataset sound. *)
Theorem C31_sort : forall (le : V -> V -> Prop) d k ascend d', argsort_spec argsort le ->
  sound d -> well_described (objects d) -> objects d <> [] -> sort d k ascend = Ok d' ->
  Permutation (objects d') (objects d) /\ sound d'
  /\ (forall a, In a (common_attributes d') <-> In a (common_attributes d))
  /\ exists vs, Forall2 (key_value d k) (objects d') vs
                /\ StronglySorted (if ascend then le else fun x y => le y x) vs.
Proof.
  intros le d k ascend d' AS S W NE H.
  destruct (sort_spec _ _ _ _ _ _ _ le d k ascend d' AS S W NE H) as (ps & vs & P & K & S' & C & _ & F & O).
  split; [eapply picks_permutation; eassumption|split; [exact S'|split; [exact C|]]].
  exists vs; split; assumption.
Qed.

(** It succeeds for the number of a common attribute and for an attribute of all objects; the
    rows of the matrix follow the objects. *)
Theorem C31_total : forall (d : dataset) k ascend, sound d -> well_described (objects d) ->
  match k with
  | SInt z => exists p, designates (length (common_attributes d)) z p
  | SStr a => forall o, In o (objects d) -> getattr o a <> None
  | SOther => objects d = []
  end -> exists d', sort d k ascend = Ok d'.
Proof.
  intros d k ascend S W H; unfold DatasetModel.sort.
  destruct (objects d) as [|o0 l0] eqn:EO; [exists d; reflexivity|rewrite <- EO in *].
  destruct k as [z|a|].
  - destruct H as (p & D); destruct (column_values_total _ _ _ _ _ d z p S W D) as (vs & d' & ->); simpl; eexists; reflexivity.
  - unfold attribute_values; rewrite EO; rewrite <- EO.
    destruct (getattr o0 a) eqn:E0; [|exfalso; apply (H o0); [rewrite EO; left; reflexivity|exact E0]].
    assert (exists vs, mapM (fun o => match getattr o a with Some v => Ok v | None => Err AttributeError end) (objects d) = Ok vs) as (vs & ->).
    { clear - H; induction (objects d) as [|o l IH]; simpl; [eexists; reflexivity|].
      destruct (getattr o a) eqn:E; [|exfalso; apply (H o); [left; reflexivity|exact E]]; simpl.
      destruct IH as (vs & ->); [intros; apply H; right; assumption|]; simpl; eexists; reflexivity. }
    simpl; eexists; reflexivity.
  - rewrite EO in H; discriminate.
Qed.

(** A key that is neither a number nor a name is not handled; an empty dataset is left alone. *)
Theorem C31_other_key : forall (d : dataset) ascend, (objects d <> [] -> sort d SOther ascend = Err UnboundLocalError)
  /\ forall k, objects d = [] -> sort d k ascend = Ok d.
Proof.
  intros d ascend; unfold DatasetModel.sort; destruct (objects d) eqn:E; split; try congruence; reflexivity.
Qed.

(** ** C32: the costs of the points are the values of the given attributes, a row per object *)
Theorem C32_costs : forall (d : dataset) names costs, sound d -> well_described (objects d) -> names <> [] ->
  compute_costs Obj V cls vector_features to_vector getattr d names = Ok costs ->
  Forall2 (fun o row => Forall2 (fun a v => key_value d (SStr a) o v) names row) (objects d) costs.
Proof. intros d names costs S W NE H; eapply compute_costs_spec; eassumption. Qed.
End Props.

(** ** Examples and refutations *)
Record ex_car := { c_class : nat; c_name : string; c_features : list string; c_vector : list Z }.
Definition ex_attr (o : ex_car) (a : string) : option Z :=
  match index_of String.eqb a (c_features o) with Some i => nth_error (c_vector o) i | None => None end.
Notation ex_make := (make ex_car Z).
Notation ex_get := (getitem ex_car Z).
Notation ex_add := (add ex_car Z c_class c_features).
Notation ex_matrix := (matrix ex_car Z c_class c_features c_vector).
Notation ex_common := (common_attributes ex_car Z c_class c_features).
Notation ex_sound := (sound c_features c_vector c_class).

Definition ex_a := {| c_class := 0; c_name := "a"; c_features := ["mpg"; "weight"]; c_vector := [18; 3504]%Z |}.
Definition ex_b := {| c_class := 0; c_name := "b"; c_features := ["mpg"; "weight"]; c_vector := [15; 3693]%Z |}.
Definition ex_c := {| c_class := 0; c_name := "c"; c_features := ["mpg"; "weight"]; c_vector := [16; 3436]%Z |}.
Definition ex_bike := {| c_class := 1; c_name := "bike"; c_features := ["weight"]; c_vector := [12]%Z |}.
Definition ex_truck := {| c_class := 2; c_name := "truck"; c_features := ["weight"; "mpg"]; c_vector := [9000; 8]%Z |}.

(** The order and the repetitions of a list of indices are lost, against the documentation
    (dataset.py:68-69). *)
Theorem C29_order_refuted : ~ (forall (l : list ex_car) ps, l <> [] -> ps <> [] -> (forall p, In p ps -> p < length l) ->
  exists d', ex_get (ex_make l) (KInts (map Z.of_nat ps)) = Ok (IDataset d') /\ picks ps l (objects _ _ d')).
Proof.
  intros H; destruct (H [ex_a; ex_b] [1; 0; 1]) as (d' & E & P); try discriminate.
  - intros p [<-|[<-|[<-|[]]]]; simpl; lia.
  - injection E as <-; simpl in P; inversion P as [|? ? ? ? P1 _]; discriminate.
Qed.

(** The sum of sound datasets may advertise attributes that its objects lack; its matrix cannot
    be computed. *)
Theorem C30_missing_refuted : ~ (forall d other s, ex_sound d -> ex_sound other ->
  ex_add d other = Ok s -> ex_sound s).
Proof.
  intros H.
  assert (ex_sound (ex_make [ex_a])) as S1.
  { refine (proj1 (C30_make ex_car Z c_class c_features c_vector [ex_a] _)).
    split; [intros o [<-|[]]; reflexivity|intros o o' [<-|[]] [<-|[]] _; reflexivity]. }
  assert (ex_sound (ex_make [ex_bike])) as S2.
  { refine (proj1 (C30_make ex_car Z c_class c_features c_vector [ex_bike] _)).
    split; [intros o [<-|[]]; reflexivity|intros o o' [<-|[]] [<-|[]] _; reflexivity]. }
  destruct (H _ _ _ S1 S2 eq_refl) as [A _].
  specialize (A ex_bike "mpg" (or_intror (or_introl eq_refl)) (or_introl eq_refl)); simpl in A.
  destruct A as [A|[]]; discriminate.
Qed.

(** Datasets with the same common attributes in another order have their cached matrices
    concatenated as they are: columns get mixed up. *)
Definition with_matrix (d : dataset ex_car Z) : dataset ex_car Z :=
  match ex_matrix d with Ok (_, d') => d' | Err _ => d end.
Theorem C30_order_refuted : ~ (forall d other s, ex_sound d -> ex_sound other ->
  (forall a, In a (ex_common d) <-> In a (ex_common other)) -> ex_add d other = Ok s -> ex_sound s).
Proof.
  intros H.
  assert (forall o, length (c_vector o) = length (c_features o) -> ex_sound (with_matrix (ex_make [o]))) as K.
  { intros o E.
    assert (well_described c_features c_vector c_class [o]) as W
      by (split; [intros o' [<-|[]]; exact E|intros o1 o2 [<-|[]] [<-|[]] _; reflexivity]).
    destruct (C30_matrix ex_car Z c_class c_features c_vector (ex_make [o]) (proj1 (C30_make _ _ _ _ _ [o] W)) W) as (m & d' & Em & _ & _ & S & _).
    unfold with_matrix; rewrite Em; exact S. }
  destruct (ex_add (with_matrix (ex_make [ex_a])) (with_matrix (ex_make [ex_truck]))) as [s|] eqn:Es; [|discriminate].
  destruct (H _ _ s (K ex_a eq_refl) (K ex_truck eq_refl)) as (_ & A & _); [intros a; cbn; tauto|exact Es|].
  injection Es as <-.
  specialize (A _ eq_refl).
  inversion A as [|? ? ? ? _ A']; subst; inversion A' as [|? ? ? ? R _]; subst.
  inversion R as [|? ? ? ? R1 _]; subst.
  destruct R1 as ([|[|[|i]]] & E1 & _ & E2); simpl in E1, E2; discriminate.
Qed.

Print Assumptions C29_mask.
Print Assumptions C29_indices.
Print Assumptions C29_increasing.
Print Assumptions C29_integer.
Print Assumptions C29_slice.
Print Assumptions C29_empty.
Print Assumptions C29_sound.
Print Assumptions C29_order_refuted.
Print Assumptions C30_make.
Print Assumptions C30_matrix.
Print Assumptions C30_same_attributes.
Print Assumptions C30_attributes.
Print Assumptions C30_subclass.
Print Assumptions C30_missing_refuted.
Print Assumptions C30_order_refuted.
Print Assumptions C31_sort.
Print Assumptions C31_total.
Print Assumptions C31_other_key.
Print Assumptions C32_costs.

(** Selection *)
Definition ex_data : dataset ex_car Z := with_matrix (ex_make [ex_a; ex_b; ex_c]).
Example C29_mask_ex : match ex_get ex_data (KBools [true; false; true]) with
  | Ok (IDataset d) => map c_name (objects _ _ d) = ["a"; "c"] /\ cached _ _ d = Some [[18; 3504]; [16; 3436]]%Z
  | _ => False end.
Proof. split; reflexivity. Qed.
Example C29_mask_rejected_ex : ex_get ex_data (KBools [true; false]) = Err ValueError.
Proof. reflexivity. Qed.
Example C29_indices_ex : match ex_get ex_data (KInts [-1; 0; 2]%Z) with
  | Ok (IDataset d) => map c_name (objects _ _ d) = ["a"; "c"]
  | _ => False end.
Proof. reflexivity. Qed.
Example C29_indices_rejected_ex : ex_get ex_data (KInts [0; 3]%Z) = Err IndexError.
Proof. reflexivity. Qed.
Example C29_slice_ex : match ex_get ex_data (KSlice (Some (-2)%Z) None None), ex_get ex_data (KSlice None None (Some (-1)%Z)) with
  | Ok (IDataset d), Ok (IDataset d') => map c_name (objects _ _ d) = ["b"; "c"] /\ map c_name (objects _ _ d') = ["c"; "b"; "a"]
  | _, _ => False end.
Proof. split; reflexivity. Qed.
Example C29_integer_ex : ex_get ex_data (KInt (-3)%Z) = Ok (IObject ex_a) /\ ex_get (ex_make []) (KInt 5%Z) = Ok IEmpty.
Proof. split; reflexivity. Qed.

(** Concatenation *)
Example C30_same_attributes_ex : match ex_add ex_data (with_matrix (ex_make [ex_b])) with
  | Ok d => map c_name (objects _ _ d) = ["a"; "b"; "c"; "b"] /\ ex_common d = ["mpg"; "weight"]
            /\ cached _ _ d = Some [[18; 3504]; [15; 3693]; [16; 3436]; [15; 3693]]%Z
  | Err _ => False end.
Proof. split; [|split]; reflexivity. Qed.
Example C30_missing_ex : match ex_add ex_data (ex_make [ex_bike]), ex_add (ex_make [ex_bike]) ex_data with
  | Ok d, Ok d' => ex_common d = ["mpg"; "weight"] /\ ex_matrix d = Err ValueError /\ ex_common d' = ["weight"]
  | _, _ => False end.
Proof. split; [|split]; reflexivity. Qed.
Example C30_order_ex : match ex_add (with_matrix (ex_make [ex_a])) (with_matrix (ex_make [ex_truck])) with
  | Ok d => ex_common d = ["mpg"; "weight"] /\ cached _ _ d = Some [[18; 3504]; [9000; 8]]%Z
  | Err _ => False end.
Proof. split; reflexivity. Qed.

(** Sorting, with an insertion sort *)
Fixpoint insert (x : Z * nat) (l : list (Z * nat)) : list (Z * nat) :=
  match l with
  | [] => [x]
  | y :: l' => if (fst x <=? fst y)%Z then x :: l else y :: insert x l'
  end.
Definition ex_argsort (vs : list Z) : list nat :=
  map snd (fold_right insert [] (combine vs (seq 0 (length vs)))).
Lemma insert_permutation : forall x l, Permutation (insert x l) (x :: l).
Proof.
  intros x l; induction l as [|y l IH]; simpl; [reflexivity|].
  destruct (fst x <=? fst y)%Z; [reflexivity|].
  rewrite IH; apply perm_swap.
Qed.
Lemma insert_sorted : forall x l, StronglySorted (fun a b => (fst a <= fst b)%Z) l -> StronglySorted (fun a b => (fst a <= fst b)%Z) (insert x l).
Proof.
  intros x l S; induction S as [|y l S IH F]; simpl; [constructor; constructor|].
  destruct (Z.leb_spec (fst x) (fst y)) as [H|H].
  - constructor; [constructor; assumption|constructor; [exact H|]].
    eapply Forall_impl; [|exact F]; intros z Hz; simpl in *; lia.
  - constructor; [exact IH|].
    eapply Permutation_Forall; [symmetry; apply insert_permutation|]; constructor; [lia|exact F].
Qed.
Lemma ex_argsort_spec : argsort_spec ex_argsort Z.le.
Proof.
  intros vs; unfold ex_argsort; set (l := combine vs (seq 0 (length vs))).
  assert (Permutation (fold_right insert [] l) l) as P.
  { induction l as [|x l IH]; simpl; [constructor|]; rewrite insert_permutation, IH; reflexivity. }
  assert (StronglySorted (fun a b => (fst a <= fst b)%Z) (fold_right insert [] l)) as S.
  { clear P; induction l as [|x l IH]; simpl; [constructor|apply insert_sorted; exact IH]. }
  assert (forall x, In x l -> nth_error vs (snd x) = Some (fst x)) as N.
  { unfold l; intros x I.
    assert (forall (v v0 : list Z) o, (forall i, nth_error v0 (o + i) = nth_error v i) -> forall x, In x (combine v (seq o (length v))) -> nth_error v0 (snd x) = Some (fst x)) as K.
    { clear; induction v as [|a v IH]; intros v0 o H x I; simpl in I; [contradiction|].
      destruct I as [<-|I]; [simpl; rewrite <- (Nat.add_0_r o), H; reflexivity|].
      apply (IH v0 (S o)); [intros i; replace (S o + i) with (o + S i) by lia; apply H|exact I]. }
    apply (K vs vs 0); [reflexivity|exact I]. }
  split.
  - assert (map snd l = seq 0 (length vs)) as <-; [|apply Permutation_map; exact P].
    unfold l; clear; generalize 0; induction vs as [|v vs IH]; intros o; simpl; [reflexivity|f_equal; apply IH].
  - intros vs' Q.
    assert (vs' = map fst (fold_right insert [] l)) as ->.
    { assert (forall x, In x (fold_right insert [] l) -> nth_error vs (snd x) = Some (fst x)) as N'
        by (intros x I; apply N; eapply Permutation_in; [exact P|exact I]).
      clear - Q N'; revert vs' Q; induction (fold_right insert [] l) as [|x m IH]; intros vs' Q; simpl in Q; inversion Q as [|? ? ? ? Q1 Q2]; subst; [reflexivity|].
      simpl; f_equal; [rewrite (N' x (or_introl eq_refl)) in Q1; injection Q1 as <-; reflexivity|].
      apply IH; [intros; apply N'; right; assumption|exact Q2]. }
    clear - S; induction S as [|x m S IH F]; simpl; constructor; [exact IH|].
    apply Forall_map; exact F.
Qed.
Notation ex_sort := (sort ex_car Z c_class c_features c_vector ex_attr ex_argsort).
Example C31_sort_ex : match ex_sort (ex_make [ex_a; ex_b; ex_c]) (SInt (-1)%Z) true, ex_sort ex_data (SStr "mpg") false with
  | Ok d, Ok d' => map c_name (objects _ _ d) = ["c"; "a"; "b"] /\ cached _ _ d = Some [[16; 3436]; [18; 3504]; [15; 3693]]%Z
                   /\ map c_name (objects _ _ d') = ["a"; "c"; "b"] /\ cached _ _ d' = Some [[18; 3504]; [16; 3436]; [15; 3693]]%Z
  | _, _ => False end.
Proof. repeat split. Qed.
Example C31_sort_ex2 : forall d' ascend, ex_sort (ex_make [ex_a; ex_bike; ex_c]) (SInt 0%Z) ascend = Ok d' ->
  Permutation (objects _ _ d') [ex_a; ex_bike; ex_c].
Proof.
  intros d' ascend H.
  assert (well_described c_features c_vector c_class [ex_a; ex_bike; ex_c]) as W.
  { split; [intros o [<-|[<-|[<-|[]]]]; reflexivity|].
    intros o o' [<-|[<-|[<-|[]]]] [<-|[<-|[<-|[]]]] E; try reflexivity; discriminate. }
  refine (proj1 (C31_sort _ _ _ _ _ _ _ Z.le _ _ _ d' ex_argsort_spec (proj1 (C30_make _ _ _ _ _ _ W)) W _ H)); discriminate.
Qed.
Example C31_other_ex : ex_sort ex_data SOther true = Err UnboundLocalError.
Proof. reflexivity. Qed.
Example C32_costs_ex : compute_costs ex_car Z c_class c_features c_vector ex_attr ex_data ["weight"; "mpg"]
  = Ok [[3504; 18]; [3693; 15]; [3436; 16]]%Z.
Proof. reflexivity. Qed.

(** Proofs about what is written in a workbook. *)
From Coq Require Import Ascii String ZArith QArith Bool Arith Lia.
From Verif Require Import Base TableModel TableProofs ExcelModel ExcelSpec ExcelProofs.
From Verif Require BreakdownModel BreakdownSpec BreakdownProofs BreakdownOrder.
From Coq Require Import List Permutation.
Import ListNotations.
Open Scope list_scope.
Open Scope nat_scope.

Import BreakdownSpec(found, found_here, found_seq, found_set, found_dict, found_attribute).

(** ** Objects in values *)

Lemma in_objects_list x l y : In y l -> In x (objects y) -> In x (flat_map objects l).
Proof. intros. apply in_flat_map. eauto. Qed.

Lemma in_objects_dict x (d : list (string * value)) k y : In (k, y) d -> In x (objects y) ->
  In x (flat_map (fun kx => objects (snd kx)) d).
Proof. intros. apply in_flat_map. exists (k, y). auto. Qed.

Lemma in_objects_attribute m c i a k y : In (k, y) a -> forall x, In x (objects y) -> In x (objects (VObj m c i a)).
Proof. intros H x Hx. simpl. right. eapply in_objects_dict; eauto. Qed.

Lemma found_object V r c i : found V r c i -> forall x, V = seen x ->
  exists m a, In (VObj m c i a) (objects x)
    /\ forall r' c' i', found (seen (VObj m c i a)) r' c' i' -> found V (r ++ r') c' i'.
Proof.
  induction 1 as [c i A|L n X r c i Hn F IH|L n X r c i Hn F IH|D k X r c i Hk F IH|c1 i1 A k X r c i Hk F IH];
    intros x E.
  - destruct x; try discriminate. simpl in E. injection E as -> -> E. subst A.
    exists module, attributes. split; [simpl; auto|]. auto.
  - assert (S : exists l, (x = VList l \/ x = VTuple l) /\ L = map seen l).
    { destruct x; try discriminate; simpl in E; injection E as ->; eauto. }
    destruct S as (l & Hx & ->). rewrite nth_error_map in Hn. destruct (nth_error l n) as [y|] eqn:Hy; [|discriminate].
    injection Hn as <-. destruct (IH y eq_refl) as (m & a & I & G). exists m, a. split.
    + destruct Hx as [-> | ->]; simpl; eapply in_objects_list; eauto using nth_error_In.
    + intros r' c' i' F'. simpl. eapply found_seq; [rewrite nth_error_map, Hy; reflexivity|]. auto.
  - destruct x; try discriminate. simpl in E. injection E as ->.
    rewrite nth_error_map in Hn. destruct (nth_error l n) as [y|] eqn:Hy; [|discriminate].
    injection Hn as <-. destruct (IH y eq_refl) as (m & a & I & G). exists m, a. split.
    + simpl; eapply in_objects_list; eauto using nth_error_In.
    + intros r' c' i' F'. simpl. eapply found_set; [rewrite nth_error_map, Hy; reflexivity|]. auto.
  - destruct x; try discriminate. simpl in E. injection E as ->.
    pose proof Hk as Hk'. apply in_map_iff in Hk'. destruct Hk' as ([k' y] & Ek & Hy). simpl in Ek. injection Ek as <- <-.
    destruct (IH y eq_refl) as (m & a & I & G). exists m, a. split.
    + simpl. eapply in_objects_dict; eauto.
    + intros r' c' i' F'. simpl. eapply found_dict; eauto.
  - destruct x; try discriminate. simpl in E. injection E as -> -> ->.
    pose proof Hk as Hk'. apply filter_In in Hk'. destruct Hk' as [Hk' _].
    apply in_map_iff in Hk'. destruct Hk' as ([k' y] & Ek & Hy). simpl in Ek. injection Ek as <- <-.
    destruct (IH y eq_refl) as (m & a & I & G). exists m, a. split.
    + simpl. right. eapply in_objects_dict; eauto.
    + intros r' c' i' F'. simpl. eapply found_attribute; eauto.
Qed.

Lemma extend_nil r : forall p, fold_left BreakdownModel.extend r p = ""%string -> p = ""%string /\ forall k, In k r -> k = ""%string.
Proof.
  induction r as [|k r IH]; simpl; intros p E; [split; auto; intros k []|].
  destruct (IH _ E) as [E1 E2]. unfold BreakdownModel.extend in E1.
  destruct (String.eqb_spec p "") as [->|N].
  - simpl in E1. subst k. split; auto. intros k [<-|Hk]; auto.
  - destruct p; [congruence|]. simpl in E1. discriminate.
Qed.

Section Written.
Variable same : nat -> nat -> bool.
Hypothesis same_refl : forall a, same a a = true.
Hypothesis same_sym : forall a b, same a b = true -> same b a = true.
Hypothesis same_trans : forall a b c, same a b = true -> same b c = true -> same a c = true.

Section Tree.
Variable v : value.
Hypothesis Sv : sound same v.

Notation members := (members same v).
Notation rows := (object_to_sheet_row same (paths_of same v)).

Lemma visited_found c i p : In (c, i, p) (visited v) <->
  exists r, found (seen v) r c i /\ p = fold_left BreakdownModel.extend r ""%string /\ p <> ""%string.
Proof. apply (BreakdownProofs.visits_found (BreakdownSpec.height (seen v))). auto. Qed.

Lemma seen_found w : forall r c i, found (seen w) r c i <-> exists m a, at_path w r (VObj m c i a).
Proof.
  intros r c i. split.
  - intros F. remember (seen w) as V eqn:E. revert w E.
    induction F as [c i a|l n x r c i Hn F IH|l n x r c i Hn F IH|d k x r c i Hk F IH|c' i' a k x r c i Hk F IH]; intros w E;
      destruct w as [| | | | |l'|l'|l'|d'|m0 c0 i0 a0]; simpl in E; try discriminate; injection E as E; subst.
    + do 2 eexists. constructor.
    + rewrite nth_error_map in Hn. destruct (nth_error l' n) as [y|] eqn:Hy; [|discriminate]. injection Hn as <-.
      destruct (IH y eq_refl) as (m & a & P). exists m, a. econstructor; eauto.
    + rewrite nth_error_map in Hn. destruct (nth_error l' n) as [y|] eqn:Hy; [|discriminate]. injection Hn as <-.
      destruct (IH y eq_refl) as (m & a & P). exists m, a. econstructor; eauto.
    + rewrite nth_error_map in Hn. destruct (nth_error l' n) as [y|] eqn:Hy; [|discriminate]. injection Hn as <-.
      destruct (IH y eq_refl) as (m & a & P). exists m, a. econstructor; eauto.
    + apply in_map_iff in Hk. destruct Hk as ([k' y] & Ek & Hy). simpl in Ek. injection Ek as -> <-.
      destruct (IH y eq_refl) as (m & a & P). exists m, a. econstructor; eauto.
    + apply filter_In in Hk. destruct Hk as [Hk Pk]. apply in_map_iff in Hk. destruct Hk as ([k' y] & Ek & Hy).
      simpl in Ek. injection Ek as -> <-. simpl in Pk. pose proof (proj1 (public_iff k) Pk).
      destruct (IH y eq_refl) as (m & a & P). exists m, a. econstructor; eauto.
  - intros (m & a & P). remember (VObj m c i a) as y eqn:Ey. revert c i Ey.
    induction P as [v0|l n x r y Hn P IH|l n x r y Hn P IH|l n x r y Hn P IH|d k x r y Hk P IH|m' c' i' a' k x r y Hk Pk P IH]; intros c i Ey.
    + subst. constructor.
    + simpl. econstructor; [|apply IH; auto]. rewrite nth_error_map, Hn. reflexivity.
    + simpl. econstructor; [|apply IH; auto]. rewrite nth_error_map, Hn. reflexivity.
    + simpl. econstructor; [|apply IH; auto]. rewrite nth_error_map, Hn. reflexivity.
    + simpl. econstructor; [|apply IH; auto]. apply in_map_iff. exists (k, x). split; auto.
    + simpl. econstructor; [|apply IH; auto]. apply filter_In. split.
      * apply in_map_iff. exists (k, x). split; auto.
      * simpl. apply public_iff. auto.
Qed.

Lemma visited_object c i p : In (c, i, p) (visited v) -> exists m a, In (VObj m c i a) (objects v).
Proof. intros H. apply visited_found in H. destruct H as (r & F & _). destruct (found_object _ _ _ _ F v eq_refl) as (m & a & I & _). eauto. Qed.

Lemma object_of_in x : In x (objects v) -> object_of v (id_of x) = x.
Proof.
  intros H. unfold object_of.
  assert (O : forall u y, In y (objects u) -> exists m c i a, y = VObj m c i a).
  { fix IH 1. intros u y Hy. destruct u as [| | | | |l|l|l|d|m c i a]; simpl in Hy; try tauto.
    - induction l as [|z l IHl]; simpl in Hy; [tauto|]. apply in_app_iff in Hy. destruct Hy; [eapply IH; eauto|auto].
    - induction l as [|z l IHl]; simpl in Hy; [tauto|]. apply in_app_iff in Hy. destruct Hy; [eapply IH; eauto|auto].
    - induction l as [|z l IHl]; simpl in Hy; [tauto|]. apply in_app_iff in Hy. destruct Hy; [eapply IH; eauto|auto].
    - induction d as [|[k z] l IHl]; simpl in Hy; [tauto|]. apply in_app_iff in Hy. destruct Hy; [eapply (IH z); eauto|auto].
    - destruct Hy as [<-|Hy]; [eauto|].
      induction a as [|[k z] l IHl]; simpl in Hy; [tauto|]. apply in_app_iff in Hy. destruct Hy; [eapply (IH z); eauto|auto]. }
  destruct (find _ (objects v)) as [y|] eqn:F.
  - apply find_some in F. destruct F as [Iy E]. destruct (O v y Iy) as (m & c & i & a & ->).
    apply Nat.eqb_eq in E. symmetry. apply (proj1 Sv); auto.
  - exfalso. destruct (O v x H) as (m & c & i & a & ->). pose proof (find_none _ _ F _ H) as G. simpl in G.
    rewrite Nat.eqb_refl in G. discriminate.
Qed.

Lemma visited_is c i p : In (c, i, p) (visited v) -> exists m a, object_of v i = VObj m c i a /\ In (VObj m c i a) (objects v).
Proof.
  intros H. destruct (visited_object c i p H) as (m & a & I). exists m, a. split; auto. apply (object_of_in _ I).
Qed.

(** what is in an attribute of an object that is visited, or of the value itself, is visited *)
Lemma visited_under x r c o p : In x (objects v) -> (x = v \/ exists c p, In (c, id_of x, p) (visited v)) ->
  found (seen x) r c o -> p = hd ""%string r -> p <> ""%string -> exists q, In (c, o, q) (visited v).
Proof.
  intros I R F Ep N.
  assert (G : exists r0, found (seen v) (r0 ++ r) c o).
  { destruct R as [->|(c' & q & H)]; [exists []; auto|].
    apply visited_found in H. destruct H as (r0 & F0 & _). exists r0.
    destruct (found_object _ _ _ _ F0 v eq_refl) as (m & a & I' & G).
    assert (x = VObj m c' (id_of x) a) as Ex.
    { apply (proj1 Sv); auto. }
    rewrite Ex in F. auto. }
  destruct G as [r0 G]. exists (fold_left BreakdownModel.extend (r0 ++ r) ""%string).
  apply visited_found. exists (r0 ++ r). split; auto. split; auto. intros E. apply extend_nil in E. destruct E as [_ E].
  destruct r as [|k r]; simpl in Ep; [congruence|]. apply N. rewrite Ep. apply E. apply in_app_iff. simpl. auto.
Qed.

Lemma visited_attribute x k m c i a : In x (objects v) -> (x = v \/ exists c p, In (c, id_of x, p) (visited v)) ->
  In (k, VObj m c i a) (dict_of x) -> public k = true -> k <> ""%string -> exists q, In (c, i, q) (visited v).
Proof.
  intros I R H P N. eapply (visited_under x [k]); eauto.
  destruct x; simpl in H; try tauto. simpl. eapply found_attribute; [|apply found_here].
  apply filter_In. split; auto. apply in_map_iff. exists (k, VObj m c i a). split; auto. reflexivity.
Qed.

Lemma visited_element x k l m c i a : In x (objects v) -> (x = v \/ exists c p, In (c, id_of x, p) (visited v)) ->
  In (k, VList l) (dict_of x) -> In (VObj m c i a) l -> public k = true -> k <> ""%string -> exists q, In (c, i, q) (visited v).
Proof.
  intros I R H Hl P N. apply In_nth_error in Hl. destruct Hl as [n Hn].
  eapply (visited_under x [k; nat_str n]); eauto.
  destruct x; simpl in H; try tauto. simpl. eapply found_attribute.
  - apply filter_In. split; [|exact P]. apply in_map_iff. exists (k, VList l). split; auto.
  - simpl. eapply found_seq; [rewrite nth_error_map, Hn; reflexivity|]. apply found_here.
Qed.

(** ** The sheets *)

Lemma paths_spec :
  map fst (paths_of same v) = classes_of v /\ NoDup (classes_of v)
  /\ forall c refs, In (c, refs) (paths_of same v) ->
       map fst refs = members c /\ refs <> []
       /\ (forall k k' o o' p p', nth_error refs k = Some (o, p) -> nth_error refs k' = Some (o', p') -> same o o' = true -> k = k')
       /\ (forall o p, In (o, p) refs -> (exists p', In (c, o, p') (visited v)) /\ exists i, In (c, i, p) (visited v) /\ same i o = true).
Proof.
  unfold paths_of.
  destruct (BreakdownOrder.breakdown_ordered same same_refl same_sym same_trans (BreakdownSpec.height (seen v)) (seen v) [] "" (le_n _))
    as (h & d & E & R & O1 & O2).
  rewrite E. destruct R as ((Nc & Nl & D) & _ & _ & _ & P & K & N).
  assert (F : map fst (map (fun cl => (fst cl, BreakdownModel.read h (snd cl))) d) = classes_of v).
  { rewrite map_map. etransitivity; [|exact O1]. apply map_ext. auto. }
  split; auto. split; [rewrite <- F, map_map; erewrite map_ext; [exact Nc|auto]|].
  intros c refs H. apply in_map_iff in H. destruct H as ([c' l] & Ec & H). simpl in Ec. injection Ec as -> <-.
  pose proof (BreakdownProofs.in_get_class _ _ _ Nc H) as G.
  split; [|split; [|split]].
  - specialize (O2 c). unfold BreakdownOrder.keys_of in O2. rewrite G in O2. exact O2.
  - destruct (N c l H) as [o Ho]. unfold BreakdownSpec.path_of in Ho. rewrite G in Ho. intros En. rewrite En in Ho. apply Ho. auto.
  - intros k k' o o' p p' Hk Hk' S. eapply (proj2 (D c l H)); eauto.
  - intros o p Ho. apply In_nth_error in Ho. destruct Ho as [k Hk]. split.
    + destruct (K c l k o p H Hk) as [q Hq]. eauto.
    + assert (Pp : BreakdownSpec.path_of same h d c o = Some p).
      { unfold BreakdownSpec.path_of. rewrite G. eapply BreakdownProofs.get_entry; eauto. exact (proj2 (D c l H)). }
      rewrite P in Pp. apply BreakdownProofs.best_spec in Pp. destruct Pp as (l1 & l2 & El & _).
      assert (I : In p (BreakdownProofs.paths same (BreakdownSpec.visits "" (seen v)) c o)) by (rewrite El, in_app_iff; simpl; auto).
      unfold BreakdownProofs.paths in I. apply in_map_iff in I. destruct I as ([[c' i] q] & Eq & I). simpl in Eq. subst q.
      apply filter_In in I. destruct I as [I T]. simpl in T. apply andb_true_iff in T. destruct T as [T1 T2].
      apply String.eqb_eq in T1. subst c'. exists i. auto.
Qed.

Lemma member_of c i p : In (c, i, p) (visited v) -> exists n j, nth_error (members c) n = Some j /\ same j i = true.
Proof.
  intros H. unfold ExcelSpec.members.
  destruct (BreakdownOrder.dedup_all same same_refl (map (fun w => snd (fst w))
      (filter (fun w => String.eqb (fst (fst w)) c) (visited v))) i) as (j & Hj & E).
  - apply in_map_iff. exists (c, i, p). split; auto. apply filter_In. split; auto. simpl. apply String.eqb_refl.
  - apply In_nth_error in Hj. destruct Hj as [n Hn]. exists n, j. auto.
Qed.

Lemma class_of_visited c i p : In (c, i, p) (visited v) -> In c (classes_of v).
Proof.
  intros H. unfold classes_of.
  destruct (BreakdownOrder.dedup_all String.eqb String.eqb_refl (map (fun w => fst (fst w)) (visited v)) c) as (y & Hy & E).
  - apply in_map_iff. exists (c, i, p). auto.
  - apply String.eqb_eq in E. subst. auto.
Qed.

Lemma paths_of_class c : In c (classes_of v) -> exists refs, In (c, refs) (paths_of same v).
Proof.
  intros H. destruct paths_spec as (E & _). rewrite <- E in H. apply in_map_iff in H. destruct H as ([c' refs] & E' & H).
  simpl in E'. subst. eauto.
Qed.

(** rows of objects *)
Lemma set_object_get i r d o : get_object same (set_object same i r d) o = if same i o then Some r else get_object same d o.
Proof.
  unfold get_object. induction d as [|[k q] d IH]; simpl.
  - destruct (same i o); auto.
  - destruct (same k i) eqn:E; simpl.
    + rewrite (BreakdownProofs.same_left same same_refl same_sym same_trans k i o E). destruct (same i o); auto.
    + destruct (same k o) eqn:F; simpl; auto. destruct (same i o) eqn:G; auto. exfalso.
      assert (same k i = true) by (eapply same_trans; [eauto|apply same_sym; auto]). congruence.
Qed.

Definition entries (cr : string * list (nat * string)) : list (nat * (string * nat * string)) :=
  map (fun e : nat * (nat * string) => (fst (snd e), (fst cr, fst e + 2, snd (snd e)))) (enumerate (snd cr)).

Lemma rows_fold paths : object_to_sheet_row same paths
  = fold_left (fun d e => set_object same (fst e) (snd e) d) (flat_map entries paths) [].
Proof.
  unfold object_to_sheet_row. generalize (@nil (nat * (string * nat * string))) as d.
  induction paths as [|cr paths IH]; intros d; simpl; auto. rewrite fold_left_app, IH. f_equal.
  unfold entries. generalize (enumerate (snd cr)) as l. intros l. revert d.
  induction l as [|[i [o p]] l IHl]; intros d; simpl; auto.
Qed.

Lemma fold_get l : forall d o r, In (o, r) l -> (forall e e', In e l -> In e' l -> same (fst e) (fst e') = true -> snd e = snd e') ->
  forall i, same o i = true -> get_object same (fold_left (fun d e => set_object same (fst e) (snd e) d) l d) i = Some r.
Proof.
  induction l as [|e l IH] using rev_ind; intros d o r H U i S; [destruct H|].
  rewrite fold_left_app. simpl. rewrite set_object_get. destruct (same (fst e) i) eqn:E.
  - f_equal. apply (U e (o, r)); [apply in_app_iff; simpl; auto|auto|]. eapply same_trans; [eauto|]. apply same_sym. auto.
  - apply in_app_iff in H. destruct H as [H|[->|[]]].
    + eapply IH; eauto. intros x y Hx Hy. apply U; apply in_app_iff; auto.
    + simpl in E. congruence.
Qed.

Lemma enumerate_nth {A} (l : list A) : forall s n x, In (n, x) (combine (seq s (List.length l)) l) <-> exists k, n = s + k /\ nth_error l k = Some x.
Proof.
  induction l as [|y l IH]; intros s n x; simpl.
  - split; [tauto|]. intros (k & _ & H). destruct k; discriminate.
  - rewrite IH. split.
    + intros [E|(k & -> & H)]; [injection E as <- <-; exists 0; split; [lia|auto]|]. exists (S k). split; [lia|auto].
    + intros (k & -> & H). destruct k as [|k]; simpl in H.
      * injection H as ->. left. f_equal. lia.
      * right. exists k. split; [lia|auto].
Qed.

Lemma in_entries c refs o r : In (o, r) (entries (c, refs)) <-> exists k p, nth_error refs k = Some (o, p) /\ r = (c, k + 2, p).
Proof.
  unfold entries, enumerate. rewrite in_map_iff. simpl. split.
  - intros ([n [o' p]] & E & H). simpl in E. injection E as -> <-. apply enumerate_nth in H. destruct H as (k & -> & H). eauto.
  - intros (k & p & H & ->). exists (k, (o, p)). split; auto. apply enumerate_nth. exists k. auto.
Qed.

Lemma row_of c refs k o p i : In (c, refs) (paths_of same v) -> nth_error refs k = Some (o, p) -> same o i = true ->
  get_object same rows i = Some (c, k + 2, p).
Proof.
  intros H Hk S. rewrite rows_fold. apply fold_get with (o := o); auto.
  - apply in_flat_map. exists (c, refs). split; auto. apply in_entries. eauto.
  - destruct paths_spec as (Ec & Nc & Ps).
    intros [o1 r1] [o2 r2] H1 H2 S12. simpl in *.
    apply in_flat_map in H1. destruct H1 as ([c1 refs1] & I1 & H1). apply in_entries in H1. destruct H1 as (k1 & p1 & H1 & ->).
    apply in_flat_map in H2. destruct H2 as ([c2 refs2] & I2 & H2). apply in_entries in H2. destruct H2 as (k2 & p2 & H2 & ->).
    destruct (Ps _ _ I1) as (_ & _ & _ & V1). destruct (Ps _ _ I2) as (_ & _ & D & V2).
    destruct (V1 o1 p1 (nth_error_In _ _ H1)) as [[q1 Q1] _]. destruct (V2 o2 p2 (nth_error_In _ _ H2)) as [[q2 Q2] _].
    destruct (visited_object _ _ _ Q1) as (m1 & a1 & J1). destruct (visited_object _ _ _ Q2) as (m2 & a2 & J2).
    assert (c1 = c2) by (apply (proj2 Sv (VObj m1 c1 o1 a1) (VObj m2 c2 o2 a2)); auto). subst c2.
    assert (refs1 = refs2).
    { rewrite <- Ec in Nc. clear - Nc I1 I2. induction (paths_of same v) as [|[c r] l IH]; simpl in *; [tauto|].
      inversion Nc as [|? ? N1 N2]. subst. destruct I1 as [E|I1], I2 as [F|I2].
      - congruence.
      - injection E as -> ->. exfalso. apply N1. apply (in_map fst _ _ I2).
      - injection F as -> ->. exfalso. apply N1. apply (in_map fst _ _ I1).
      - auto. }
    subst refs2. assert (k1 = k2) by (eapply D; eauto). subst k2. rewrite H1 in H2. injection H2 as <- <-. auto.
Qed.

(** the row, in the sheet of its class, of an object that is visited *)
Lemma row_of_visited c i p : In (c, i, p) (visited v) -> exists n j q,
  get_object same rows i = Some (c, n + 2, q) /\ nth_error (members c) n = Some j /\ same j i = true
  /\ exists o, In (c, o, q) (visited v) /\ same o i = true.
Proof.
  intros H. destruct (member_of c i p H) as (n & j & Hn & S).
  destruct (paths_of_class c (class_of_visited c i p H)) as [refs Hr].
  destruct paths_spec as (Ec & Nc & Ps). destruct (Ps _ _ Hr) as (Em & _ & _ & Pv).
  rewrite <- Em in Hn. rewrite nth_error_map in Hn. destruct (nth_error refs n) as [[j' q]|] eqn:Hq; [|discriminate].
  injection Hn as ->. exists n, j, q. split; [eapply row_of; eauto|].
  split; [rewrite <- Em, nth_error_map, Hq; auto|]. split; auto.
  destruct (Pv j q (nth_error_In _ _ Hq)) as [_ (o & Ho & So)]. exists o. split; auto. eapply same_trans; eauto.
Qed.

(** ** The grid of a class *)

Lemma set_row_end r : forall g, set_row (S (List.length g)) r g = g ++ [r].
Proof. induction g as [|x g IH]; auto. cbn [List.length set_row app]. f_equal. exact IH. Qed.

Variable pystr : value -> string.
Variable round6 : Q -> Q.
Notation object_row := (object_row same pystr round6 rows).

Definition rows_written (refs : list (nat * string)) : res (list (list cell)) :=
  mapM (fun e => object_row (dict_of (object_of v (fst e))) (snd e)) refs.

Lemma class_sheet_spec c refs : In (c, refs) (paths_of same v) ->
  exists o p o' p' m a, hd_error refs = Some (o, p) /\ In (o', p') refs /\ object_of v o = VObj m c o a /\
  class_sheet same pystr round6 v rows (c, refs) =
  let* rs := rows_written refs in
  Ok {| title := c;
        grid := [text "Module"; text "Class"] :: [text m; text c]
                :: header_row (dict_of (object_of v o')) :: rs |}.
Proof.
  intros H. destruct paths_spec as (Ec & Nc & Ps). destruct (Ps _ _ H) as (Em & Ne & D & Pv).
  destruct refs as [|[o p] refs']; [congruence|].
  set (refs := (o, p) :: refs') in *.
  destruct (Pv o p (or_introl eq_refl)) as [[q Hq] _]. destruct (visited_is _ _ _ Hq) as (m & a & Eo & Io).
  assert (L : In (last refs (o, p)) refs).
  { unfold refs. clear. generalize (o, p) at 1 3 as x. induction refs' as [|y l IH]; intros x; [simpl; auto|].
    change (last (x :: y :: l) (o, p)) with (last (y :: l) (o, p)). right. apply IH. }
  exists o, p, (fst (last refs (o, p))), (snd (last refs (o, p))), m, a.
  split; auto. split; [destruct (last refs (o, p)); auto|]. split; auto.
  unfold class_sheet. cbn [fst snd]. change (hd_error refs) with (Some (o, p)). cbn [of_option bind fst]. rewrite Eo.
  set (pre := [[text "Module"; text "Class"]; [text m; text c]; []]).
  match goal with |- context [foldM ?f refs pre] => set (step := f) end.
  assert (G : forall l done_ (rs : list (list cell)), refs = done_ ++ l -> List.length rs = List.length done_ ->
     foldM step l (pre ++ rs) = let* rs' := rows_written l in Ok (pre ++ rs ++ rs')).
  { induction l as [|[o1 p1] l IH]; intros dn rs E Lr.
    - unfold rows_written. simpl. rewrite app_nil_r. auto.
    - assert (E' : refs = (dn ++ [(o1, p1)]) ++ l) by (rewrite <- app_assoc; exact E).
      assert (Hn : nth_error refs (List.length dn) = Some (o1, p1)).
      { rewrite E, nth_error_app2, Nat.sub_diag by lia. auto. }
      cbn [foldM]. unfold step at 1. cbn [fst].
      rewrite (row_of c refs (List.length dn) o1 p1 o1 H Hn (same_refl o1)). cbn [of_option bind].
      unfold rows_written. cbn [mapM fst snd].
      destruct (object_row (dict_of (object_of v o1)) p1) as [cells|er]; cbn [bind]; auto.
      replace (List.length dn + 2 + 2) with (S (List.length (pre ++ rs))) by (rewrite app_length; simpl; lia).
      rewrite set_row_end, <- app_assoc.
      rewrite (IH (dn ++ [(o1, p1)]) (rs ++ [cells]) E') by (rewrite !app_length; simpl; lia).
      fold (rows_written l). destruct (rows_written l); cbn [bind]; auto. rewrite <- app_assoc. auto. }
  specialize (G refs [] [] eq_refl eq_refl). rewrite app_nil_r in G. rewrite G.
  destruct (rows_written refs) as [rs|er]; cbn [bind]; auto.
Qed.
End Tree.
End Written.

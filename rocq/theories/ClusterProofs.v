(** Proofs about clustered datasets. *)
From Coq Require Import ZArith Bool String Lia Sorted Permutation List.
From Verif Require Import Base BaseProofs DatasetModel DatasetSpec DatasetProofs ClusterModel ClusterSpec.
Import ListNotations.
Open Scope nat_scope.

(** ** Splitting *)
Lemma append_at_map : forall A (f : Z -> list A) unic z p o, NoDup unic -> index_of Z.eqb z unic = Some p ->
  append_at p o (map f unic) = Ok (map (fun y => if (z =? y)%Z then f y ++ [o] else f y) unic).
Proof.
  intros A f unic z; induction unic as [|y unic IH]; intros p o ND E; simpl in *; [discriminate|].
  inversion ND as [|? ? NI ND']; subst.
  destruct (z =? y)%Z eqn:Ezy.
  - injection E as <-; simpl; f_equal; f_equal; apply map_ext_in; intros x I.
    apply Z.eqb_eq in Ezy; subst y; destruct (z =? x)%Z eqn:Ex; [|reflexivity].
    apply Z.eqb_eq in Ex; subst x; contradiction.
  - destruct (index_of Z.eqb z unic) as [q|] eqn:Eq; [|discriminate]; injection E as <-.
    simpl; rewrite (IH q o ND' eq_refl); reflexivity.
Qed.
Lemma fill_spec : forall (A : Type) (all : list A) unic, NoDup unic -> forall (ls : list Z) (os : list A) n (f : Z -> list A),
  length ls = length os -> (forall i, nth_error all (n + i) = nth_error os i) -> (forall z, In z ls -> In z unic) ->
  foldM (fun subs (il : nat * Z) =>
           let (idx, label) := il in
           let* p := of_option ValueError (index_of Z.eqb label unic) in
           let* o := of_option IndexError (nth_error all idx) in
           append_at p o subs) (combine (seq n (length ls)) ls) (map f unic)
  = Ok (map (fun z => f z ++ members z (combine os ls)) unic).
Proof.
  intros A all unic ND; induction ls as [|z ls IH]; intros os n f L H I.
  - destruct os; [|discriminate]; simpl; f_equal; apply map_ext; intros y; unfold members; simpl; rewrite app_nil_r; reflexivity.
  - destruct os as [|o os]; [discriminate|]; cbn [length seq combine foldM].
    destruct (index_of_In Z.eqb Z.eqb_eq z unic (I z (or_introl eq_refl))) as (p & Ep).
    rewrite Ep; cbn [of_option bind].
    pose proof (H 0) as H0; rewrite Nat.add_0_r in H0; rewrite H0; cbn [nth_error of_option bind].
    rewrite (append_at_map A f unic z p o ND Ep); cbn [bind].
    rewrite (IH os (S n)).
    + f_equal; apply map_ext; intros y; unfold members; simpl.
      rewrite Z.eqb_sym; destruct (y =? z)%Z; simpl; [rewrite <- app_assoc|]; reflexivity.
    + simpl in L; lia.
    + intros i; specialize (H (S i)); rewrite Nat.add_succ_r in H; exact H.
    + intros y Iy; apply I; right; exact Iy.
Qed.

Lemma count_others : forall l, NoDup l ->
  length (filter (fun z => negb (z =? -1)%Z) l) + (if memb Z.eqb (-1)%Z l then 1 else 0) = length l.
Proof.
  assert (forall l, ~ In (-1)%Z l -> filter (fun z => negb (z =? -1)%Z) l = l) as K.
  { induction l as [|z l IH]; intros N; [reflexivity|]; simpl.
    destruct (z =? -1)%Z eqn:E; simpl.
    - apply Z.eqb_eq in E; exfalso; apply N; left; exact E.
    - f_equal; apply IH; intros I; apply N; right; exact I. }
  induction l as [|z l IH]; intros ND; [reflexivity|].
  inversion ND as [|? ? NI ND']; subst; specialize (IH ND').
  cbn [filter memb existsb length]; rewrite (Z.eqb_sym (-1)%Z z).
  destruct (z =? -1)%Z eqn:E; cbn [negb orb length].
  - apply Z.eqb_eq in E; subst z; rewrite (K l NI); lia.
  - unfold memb in IH; lia.
Qed.
Lemma memb_same : forall l l', (forall z, In z l <-> In z l') -> memb Z.eqb (-1)%Z l = memb Z.eqb (-1)%Z l'.
Proof.
  intros l l' H; destruct (memb Z.eqb (-1)%Z l) eqn:E, (memb Z.eqb (-1)%Z l') eqn:E'; try reflexivity; exfalso.
  - apply (memb_In Z.eqb Z.eqb_eq) in E; apply H in E; apply (memb_In Z.eqb Z.eqb_eq) in E; congruence.
  - apply (memb_In Z.eqb Z.eqb_eq) in E'; apply H in E'; apply (memb_In Z.eqb Z.eqb_eq) in E'; congruence.
Qed.
Lemma others_perm : forall set_list others ls, lists_set set_list -> lists_others others ->
  Permutation (others ls) (filter (fun z => negb (z =? -1)%Z) (set_list ls)).
Proof.
  intros f g ls F G; destruct (F ls) as [NF HF], (G ls) as [NG HG].
  apply NoDup_Permutation; [exact NG|apply NoDup_filter; exact NF|].
  intros z; rewrite HG, filter_In, HF, negb_true_iff, Z.eqb_neq; reflexivity.
Qed.
Lemma insert_perm : forall s l, Permutation (insert_string s l) (s :: l).
Proof.
  intros s; induction l as [|t l IH]; simpl; [reflexivity|].
  destruct (String.leb s t); [reflexivity|]; rewrite IH; apply perm_swap.
Qed.
Lemma sorted_perm : forall l, Permutation (sorted_strings l) l.
Proof. induction l as [|s l IH]; simpl; [reflexivity|]; rewrite insert_perm, IH; reflexivity. Qed.

Section Split.
Context {Obj V : Type}.
Variable cls : Obj -> nat.
Variable vector_features : Obj -> list string.
Variable set_list others : list Z -> list Z.
Hypothesis set_spec : lists_set set_list.
Hypothesis others_spec : lists_others others.
Notation objects := (DatasetModel.objects Obj V).
Notation clustered_sublists := (clustered_sublists Obj V set_list others).

Definition tail_of (ls : list Z) : list Z := if has_outliers ls then [(-1)%Z] else [].
Definition tags_of (ls : list Z) : list string :=
  sorted_strings (map str_of_Z (others ls)) ++ (if has_outliers ls then ["outliers"%string] else []).
Lemma length_set : forall ls, length (others ls) + (if has_outliers ls then 1 else 0) = length (set_list ls).
Proof.
  intros ls; rewrite (Permutation_length (others_perm _ _ ls set_spec others_spec)).
  rewrite <- (count_others (set_list ls)) by apply set_spec; f_equal.
  unfold has_outliers; rewrite (memb_same ls (set_list ls)) by (intros z; symmetry; apply set_spec); reflexivity.
Qed.
Lemma length_tags : forall ls, length (tags_of ls) = length (set_list ls).
Proof.
  intros ls; unfold tags_of; rewrite app_length, (Permutation_length (sorted_perm _)), map_length, <- length_set.
  destruct (has_outliers ls); reflexivity.
Qed.
Lemma length_reported : forall ls, length (others ls ++ tail_of ls) = length (set_list ls).
Proof.
  intros ls; rewrite app_length, <- length_set; unfold tail_of; destruct (has_outliers ls); reflexivity.
Qed.
Lemma empty_lists : forall A n (l : list A) (b : bool), n + (if b then 1 else 0) = length l ->
  repeat [] n ++ (if b then [[]] else []) = map (fun _ => @nil Obj) l.
Proof.
  intros A n l b H.
  assert (map (fun _ => @nil Obj) l = repeat [] (length l)) as ->.
  { clear; induction l; simpl; congruence. }
  rewrite <- H; destruct b; [|rewrite Nat.add_0_r; apply app_nil_r].
  rewrite Nat.add_1_r; simpl; rewrite repeat_cons; reflexivity.
Qed.
Lemma split_result : forall name (c : clustered Obj V), one_label_each c ->
  clustered_sublists name c =
  Ok {| parts := map (fun ts => ((name ++ "_" ++ fst ts)%string, make Obj V (snd ts)))
                     (combine (tags_of (labels _ _ c)) (map (fun z => members z (labelled c)) (set_list (labels _ _ c))));
        split_labels := others (labels _ _ c) ++ tail_of (labels _ _ c);
        split_name := (name ++ "_split")%string |}.
Proof.
  intros name c L; unfold ClusterModel.clustered_sublists.
  set (ls := labels _ _ c) in *.
  rewrite (empty_lists Z (n_clusters set_list ls) (set_list ls)).
  2:{ unfold n_clusters; rewrite <- (Permutation_length (others_perm _ _ ls set_spec others_spec)); apply length_set. }
  unfold enumerate; rewrite (fill_spec Obj (objects (base _ _ c)) (set_list ls) (proj1 (set_spec ls)) ls (objects (base _ _ c)) 0).
  - cbn [bind app]; reflexivity.
  - exact L.
  - reflexivity.
  - intros z I; apply set_spec; exact I.
Qed.
Lemma split_parts : forall (c : clustered Obj V) name, one_label_each c ->
  map (fun nd => objects (snd nd)) (map (fun ts => ((name ++ "_" ++ fst ts)%string, make Obj V (snd ts)))
      (combine (tags_of (labels _ _ c)) (map (fun z => members z (labelled c)) (set_list (labels _ _ c)))))
  = map (fun z => members z (labelled c)) (set_list (labels _ _ c)).
Proof.
  intros c name L; rewrite map_map; cbn.
  set (l := map (fun z => members z (labelled c)) _).
  assert (length (tags_of (labels _ _ c)) = length l) as H by (unfold l; rewrite map_length; apply length_tags).
  revert H; generalize (tags_of (labels _ _ c)) l; clear; intros t l; revert t.
  induction l as [|x l IH]; intros [|y t] H; simpl in *; try discriminate; [reflexivity|f_equal; apply IH; lia].
Qed.
Lemma member_label : forall (l : list (Obj * Z)) z, In z (map snd l) -> members z l <> [].
Proof.
  intros l z I; apply in_map_iff in I as ([o y] & E & I); simpl in E; subst y.
  intros N; assert (In o (members z l)) as K.
  { unfold members; apply in_map_iff; exists (o, z); split; [reflexivity|]; apply filter_In; split; [exact I|simpl; apply Z.eqb_refl]. }
  rewrite N in K; contradiction.
Qed.
Lemma labelled_snd : forall c : clustered Obj V, one_label_each c -> map snd (labelled c) = labels _ _ c.
Proof.
  intros c; unfold one_label_each, labelled; generalize (objects (base _ _ c)) (labels _ _ c).
  induction l as [|o l IH]; intros [|z ls] H; simpl in *; try discriminate; [reflexivity|f_equal; apply IH; lia].
Qed.
Lemma labelled_fst : forall c : clustered Obj V, one_label_each c -> map fst (labelled c) = objects (base _ _ c).
Proof.
  intros c; unfold one_label_each, labelled; generalize (objects (base _ _ c)) (labels _ _ c).
  induction l as [|o l IH]; intros [|z ls] H; simpl in *; try discriminate; [reflexivity|f_equal; apply IH; lia].
Qed.
(** grouping by label is a permutation *)
Lemma group_perm : forall (l : list (Obj * Z)) unic, NoDup unic -> (forall z, In z (map snd l) -> In z unic) ->
  Permutation (flat_map (fun z => map (fun o => (o, z)) (members z l)) unic) l.
Proof.
  induction l as [|[o y] l IH]; intros unic ND H.
  - assert (forall u, flat_map (fun z : Z => map (fun o : Obj => (o, z)) (members z [])) u = []) as ->.
    { induction u as [|x u IHu]; simpl; [reflexivity|exact IHu]. }
    reflexivity.
  - assert (In y unic) as I by (apply H; left; reflexivity).
    destruct (in_split _ _ I) as (u1 & u2 & ->).
    assert (forall u, ~ In y u -> flat_map (fun z => map (fun o => (o, z)) (members z ((o, y) :: l))) u
                                = flat_map (fun z => map (fun o => (o, z)) (members z l)) u) as K.
    { induction u as [|x u IHu]; intros N; [reflexivity|]; simpl; rewrite IHu by (intros J; apply N; right; exact J).
      unfold members; simpl; destruct (y =? x)%Z eqn:E; [|reflexivity].
      apply Z.eqb_eq in E; exfalso; apply N; left; symmetry; exact E. }
    pose proof (NoDup_remove_2 _ _ _ ND) as NI.
    rewrite flat_map_app; cbn [flat_map].
    rewrite K by (intros J; apply NI; apply in_or_app; left; exact J).
    rewrite (K u2) by (intros J; apply NI; apply in_or_app; right; exact J).
    unfold members at 2; simpl; rewrite Z.eqb_refl; simpl.
    rewrite <- Permutation_middle; constructor.
    etransitivity; [|apply (IH (u1 ++ y :: u2) ND); intros z J; apply H; right; exact J].
    rewrite flat_map_app; cbn [flat_map]; reflexivity.
Qed.

(** ** Merging *)
Lemma range_all : forall n b, b <= n -> range n (Z.of_nat b) (Z.of_nat n) 1 = seq b (n - b).
Proof.
  assert (forall fuel b m, m <= fuel -> range fuel (Z.of_nat b) (Z.of_nat (b + m)) 1 = seq b m) as K.
  { induction fuel as [|fuel IH]; intros b m H; [replace m with 0 by lia; reflexivity|].
    cbn [range]; change (0 <? 1)%Z with true; cbv iota.
    destruct m as [|m].
    - rewrite (proj2 (Z.ltb_ge _ _)) by lia; reflexivity.
    - rewrite (proj2 (Z.ltb_lt _ _)) by lia; simpl seq; rewrite Nat2Z.id; f_equal.
      replace (Z.of_nat b + 1)%Z with (Z.of_nat (S b)) by lia.
      replace (b + S m) with (S b + m) by lia; apply IH; lia. }
  intros n b H; specialize (K n b (n - b)); replace (b + (n - b)) with n in K by lia; apply K; lia.
Qed.
Lemma take_all : forall A (l : list A), take l (seq 0 (length l)) = l.
Proof.
  intros A l; unfold take.
  assert (forall l2 l1 : list A, flat_map (fun p => match nth_error (l1 ++ l2) p with Some x => [x] | None => [] end) (seq (length l1) (length l2)) = l2) as K.
  { induction l2 as [|x l2 IH]; intros l1; [reflexivity|]; simpl.
    rewrite nth_error_app2 by lia; rewrite Nat.sub_diag; simpl; f_equal.
    specialize (IH (l1 ++ [x])); rewrite <- app_assoc, app_length in IH; simpl in IH.
    rewrite Nat.add_1_r in IH; exact IH. }
  exact (K l []).
Qed.
Lemma whole_slice : forall (l : list Obj), l <> [] -> getitem Obj V (make Obj V l) (KSlice None None None) = Ok (IDataset (make Obj V l)).
Proof.
  intros l N; unfold getitem, pick_from_slice, slice_positions; cbn -[range].
  destruct l as [|x l]; [contradiction|].
  change (range (length (x :: l)) 0 (Z.of_nat (length (x :: l))) 1) with (range (length (x :: l)) (Z.of_nat 0) (Z.of_nat (length (x :: l))) 1).
  rewrite range_all by lia; rewrite Nat.sub_0_r, take_all; reflexivity.
Qed.
Lemma add_plain : forall d other : dataset Obj V, plain _ _ d = true -> plain _ _ other = true ->
  exists m, add Obj V cls vector_features d other = Ok m /\ objects m = objects d ++ objects other /\ plain _ _ m = true.
Proof.
  intros d other P P'; unfold add; rewrite P, P'; simpl.
  destruct (forallb _ _); eexists; split; try reflexivity; split; reflexivity.
Qed.
Lemma merge_loop : forall (rest : list (string * dataset Obj V)) ls m acc, plain _ _ m = true ->
  (forall nd, In nd rest -> plain _ _ (snd nd) = true) -> length ls = length rest ->
  exists m', foldM (fun (ml : dataset Obj V * list Z) (dl : (string * dataset Obj V) * Z) =>
                               let (m, ls) := ml in
                               let* m' := extend Obj V cls vector_features m (snd (fst dl)) in
                               Ok (m', ls ++ repeat (snd dl) (length (objects (snd (fst dl))))))
                            (combine rest ls) (m, acc)
             = Ok (m', acc ++ concat (map (fun dl => repeat (snd dl) (length (objects (snd (fst dl))))) (combine rest ls)))
    /\ objects m' = objects m ++ concat (map (fun nd => objects (snd nd)) rest).
Proof.
  induction rest as [|nd rest IH]; intros ls m acc P F L; destruct ls as [|z ls]; try discriminate; cbn [combine foldM map concat].
  - exists m; rewrite !app_nil_r; split; reflexivity.
  - cbn [fst snd]; unfold extend at 1.
    destruct (add_plain m (snd nd) P (F nd (or_introl eq_refl))) as (m1 & E & O & P1).
    rewrite E; cbn [bind].
    destruct (IH ls m1 (acc ++ repeat z (length (objects (snd nd)))) P1) as (m' & E' & O').
    + intros nd' I; apply F; right; exact I.
    + simpl in L; lia.
    + exists m'; split; [rewrite E', <- app_assoc; reflexivity|rewrite O', O, <- app_assoc; reflexivity].
Qed.
Lemma merge_spec : forall name (c : clustered Obj V), one_label_each c -> objects (base _ _ c) <> [] ->
  exists s c', clustered_sublists name c = Ok s /\ merge_sublists Obj V cls vector_features s = Ok c'
    /\ objects (base _ _ c') = concat (map (fun z => members z (labelled c)) (set_list (labels _ _ c)))
    /\ labels _ _ c' = concat (map (fun oz => repeat (snd oz) (length (fst oz)))
                         (combine (map (fun z => members z (labelled c)) (set_list (labels _ _ c)))
                                  (others (labels _ _ c) ++ tail_of (labels _ _ c)))).
Proof.
  intros name c L NE; pose proof (split_result name c L) as E.
  pose proof (length_tags (labels _ _ c)) as LT; pose proof (length_reported (labels _ _ c)) as LR.
  assert (forall z, In z (set_list (labels _ _ c)) -> members z (labelled c) <> []) as NM.
  { intros z I; apply member_label; rewrite (labelled_snd c L); apply set_spec; exact I. }
  assert (set_list (labels _ _ c) <> []) as NS.
  { intros N; destruct (labels _ _ c) as [|z ls] eqn:EL.
    - unfold one_label_each in L; rewrite EL in L; destruct (objects (base _ _ c)); [contradiction|discriminate].
    - assert (In z (set_list (z :: ls))) as I by (apply set_spec; left; reflexivity).
      rewrite N in I; contradiction. }
  rewrite E; clear E.
  destruct (set_list (labels _ _ c)) as [|z0 u] eqn:EU; [contradiction|clear NS].
  destruct (tags_of (labels _ _ c)) as [|t0 t] eqn:ET; [discriminate|].
  destruct (others (labels _ _ c) ++ tail_of (labels _ _ c)) as [|r0 r] eqn:ER; [discriminate|].
  cbn [map combine]; match goal with |- exists s c', Ok ?x = Ok s /\ _ => exists x end.
  assert (members z0 (labelled c) <> []) as N0 by (apply NM; left; reflexivity).
  unfold merge_sublists; cbn [parts split_labels].
  cbn [snd]; rewrite (whole_slice _ N0); cbn [bind].
  change (py_get (r0 :: r) 0) with (@Ok Z r0); cbn [bind tl].
  set (rest := map (fun ts => ((name ++ "_" ++ fst ts)%string, make Obj V (snd ts))) (combine t (map (fun z => members z (labelled c)) u))).
  assert (map (fun nd => objects (snd nd)) rest = map (fun z => members z (labelled c)) u) as EP.
  { unfold rest; rewrite map_map; cbn.
    set (l := map (fun z => members z (labelled c)) u).
    assert (length t = length l) as H by (unfold l; rewrite map_length; simpl in LT; lia).
    revert H; generalize t l; clear; intros t l; revert t.
    induction l as [|x l IH]; intros [|y t] H; simpl in *; try discriminate; [reflexivity|f_equal; apply IH; lia]. }
  assert (length r = length rest) as LE.
  { rewrite <- (map_length (fun nd => objects (snd nd)) rest), EP, map_length; simpl in LR; lia. }
  destruct (merge_loop rest r (make Obj V (members z0 (labelled c))) (repeat r0 (length (members z0 (labelled c))))) as (m' & E & O).
  - reflexivity.
  - intros nd I; unfold rest in I; apply in_map_iff in I as (ts & <- & _); reflexivity.
  - exact LE.
  - exists (cluster Obj V (objects m') (Some (repeat r0 (length (members z0 (labelled c)))
              ++ concat (map (fun dl => repeat (snd dl) (length (objects (snd (fst dl))))) (combine rest r))))); split; [reflexivity|].
    change (DatasetModel.objects Obj V (make Obj V (members z0 (labelled c)))) with (members z0 (labelled c)) in *.
    rewrite E; cbn [bind]; split; [reflexivity|].
    cbn [cluster base labels DatasetModel.objects]; rewrite O, EP; cbn [concat]; split; [reflexivity|].
    f_equal; f_equal.
    rewrite <- EP; clear; revert r; induction rest as [|nd rest IH]; intros [|z r]; simpl; try reflexivity.
    f_equal; apply IH.
Qed.
End Split.

(** ** Centroids *)
Lemma set_at_length : forall A i (x : A) l, length (set_at i x l) = length l.
Proof. intros A; induction i as [|i IH]; intros x [|y l]; simpl; auto. Qed.
Lemma set_at_nth : forall A l i (x : A) j, i < length l ->
  nth_error (set_at i x l) j = if Nat.eqb i j then Some x else nth_error l j.
Proof.
  intros A; induction l as [|y l IH]; intros i x j H; simpl in *; [lia|].
  destruct i as [|i], j as [|j]; simpl; try reflexivity; apply IH; lia.
Qed.
Lemma index_of_first : forall A (eqb : A -> A -> bool) x l, (forall y, eqb y y = true) -> In x l ->
  exists i y, index_of eqb x l = Some i /\ nth_error l i = Some y /\ eqb x y = true
    /\ forall j z, j < i -> nth_error l j = Some z -> eqb x z = false.
Proof.
  intros A eqb x l R; induction l as [|a l IH]; intros I; [contradiction|]; simpl.
  destruct (eqb x a) eqn:E.
  - exists 0, a; repeat split; [exact E|lia].
  - destruct I as [->|I]; [rewrite R in E; discriminate|].
    destruct (IH I) as (i & y & E1 & E2 & E3 & E4); exists (S i), y; rewrite E1; repeat split; auto.
    intros [|j] z Hj Hz; simpl in Hz; [injection Hz as <-; exact E|apply (E4 j); [lia|exact Hz]].
Qed.

Section Centroids.
Context {Obj V M D : Type}.
Variable mean : list Obj -> M.
Variable distance : M -> Obj -> D.
Variable lt eqb : D -> D -> bool.
Hypothesis ord : ordering lt eqb.
Notation objects := (DatasetModel.objects Obj V).

Lemma min_spec : forall l x, let m := fold_left (fun m y => if lt y m then y else m) l x in
  (m = x \/ In m l) /\ (lt x m = false) /\ forall y, In y l -> lt y m = false.
Proof.
  destruct ord as (I & T & _); cbv zeta.
  assert (forall l x, (fold_left (fun m y => if lt y m then y else m) l x = x \/
                       lt (fold_left (fun m y => if lt y m then y else m) l x) x = true)) as K.
  { induction l as [|y l IH]; intros x; simpl; [left; reflexivity|].
    destruct (lt y x) eqn:E; [|apply IH].
    right; destruct (IH y) as [->|H]; [exact E|eapply T; eassumption]. }
  induction l as [|y l IH]; intros x; simpl.
  - split; [left; reflexivity|split; [apply I|contradiction]].
  - destruct (lt y x) eqn:E.
    + destruct (IH y) as (HM & H1 & H2); split; [destruct HM as [HM|HM]; [right; left; symmetry; exact HM|right; right; exact HM]|split].
      * match goal with |- lt x ?m = false => destruct (lt x m) eqn:E' end; [|reflexivity]; rewrite (T _ _ _ E E') in H1; discriminate.
      * intros z [<-|Iz]; [exact H1|apply H2; exact Iz].
    + destruct (IH x) as (HM & H1 & H2).
      split; [destruct HM as [HM|HM]; [left; exact HM|right; right; exact HM]|split; [exact H1|]].
      intros z [<-|Iz]; [|apply H2; exact Iz].
      match goal with |- lt y ?m = false => destruct (lt y m) eqn:E' end; [|reflexivity].
      destruct (K l x) as [KE|KL].
      * rewrite KE in E'; congruence.
      * rewrite (T _ _ _ E' KL) in E; discriminate.
Qed.

(** one turn of the loop *)
Definition far (os : list Obj) (o o' : Obj) : bool := lt (distance (mean os) o') (distance (mean os) o).
Definition centroid_step (ps : list (string * dataset Obj V)) (ds : list (list D)) (cents : list (option Obj)) (label : Z) :=
  let* d := py_get ds label in
  let* m := py_min lt d in
  let* min_idx := of_option ValueError (index_of eqb m d) in
  let* part := py_get ps label in
  let* o := py_get (objects (snd part)) (Z.of_nat min_idx) in
  py_set cents label (Some o).
Definition dists (ps : list (string * dataset Obj V)) : list (list D) :=
  map (fun nd => map (distance (mean (objects (snd nd)))) (objects (snd nd))) ps.
Lemma distances_dists : forall s, distances Obj V M D mean distance s = dists (parts _ _ s).
Proof.
  intros s; unfold distances, dists; generalize (parts _ _ s); clear.
  induction l as [|nd l IH]; simpl; [reflexivity|f_equal; exact IH].
Qed.
Lemma step_ok : forall ps cents z i nd, length cents = length ps -> py_index (length ps) z = Some i ->
  nth_error ps i = Some nd -> objects (snd nd) <> [] ->
  exists o, nearest (far (objects (snd nd))) (objects (snd nd)) o
    /\ centroid_step ps (dists ps) cents z = Ok (set_at i (Some o) cents).
Proof.
  intros ps cents z i nd L E N NE; unfold centroid_step, py_get, py_set.
  assert (length (dists ps) = length ps) as LD by (unfold dists; apply map_length).
  rewrite LD, L, E.
  assert (nth_error (dists ps) i = Some (map (distance (mean (objects (snd nd)))) (objects (snd nd)))) as ND.
  { unfold dists; apply (map_nth_error (fun nd => map (distance (mean (objects (snd nd)))) (objects (snd nd)))); exact N. }
  rewrite ND, N; cbn [bind].
  revert NE; generalize (objects (snd nd)); intros os NE; set (g := distance (mean os)).
  destruct ord as (I & T & R & C & O).
  assert (exists o0 os', os = o0 :: os') as (o0 & os' & EO) by (destruct os as [|o0 os']; [contradiction|exists o0, os'; reflexivity]).
  assert (map g os = g o0 :: map g os') as EM by (rewrite EO; reflexivity).
  destruct (min_spec (map g os') (g o0)) as (HM & H1 & H2).
  set (m := fold_left (fun m y => if lt y m then y else m) (map g os') (g o0)) in *.
  assert (py_min lt (map g os) = Ok m) as -> by (rewrite EM; reflexivity).
  assert (In m (map g os)) as Im.
  { rewrite EM; destruct HM as [->|HM]; [left; reflexivity|right; exact HM]. }
  assert (forall y, In y (map g os) -> lt y m = false) as Hm.
  { rewrite EM; intros y [<-|Iy]; [exact H1|apply H2; exact Iy]. }
  cbn [bind]; destruct (index_of_first _ eqb m (map g os) R Im) as (k & y & Ek & Ny & Ey & First).
  rewrite Ek; cbn [of_option bind].
  rewrite nth_error_map in Ny; destruct (nth_error os k) as [o|] eqn:Eo; [|discriminate].
  injection Ny as <-; exists o; split.
  - exists k; split; [exact Eo|split].
    + intros o' Io'; unfold far; fold g; rewrite <- (C _ _ _ Ey); apply Hm; apply in_map; exact Io'.
    + intros j o' Hj Hn; apply in_map_iff in Im as (o'' & E'' & I''); exists o''; split; [exact I''|].
      unfold far; fold g; rewrite E''.
      destruct (O m (g o')) as [H|H]; [|exact H|].
      * apply (First j); [exact Hj|]; rewrite nth_error_map, Hn; reflexivity.
      * rewrite (Hm (g o')) in H; [discriminate|]; apply in_map; apply (nth_error_In _ _ Hn).
  - rewrite py_index_nonneg; [|lia|].
    + rewrite Nat2Z.id, Eo; cbn [bind]; reflexivity.
    + assert (k < length os) by (apply nth_error_Some; congruence); lia.
Qed.
Lemma step_err : forall ps cents z, py_index (length ps) z = None -> centroid_step ps (dists ps) cents z = Err IndexError.
Proof.
  intros ps cents z E; unfold centroid_step, py_get.
  assert (length (dists ps) = length ps) as -> by (unfold dists; apply map_length).
  rewrite E; reflexivity.
Qed.

Definition filled (ps : list (string * dataset Obj V)) (cents : list (option Obj)) (p : nat) : Prop :=
  exists nd o, nth_error ps p = Some nd /\ nth_error cents p = Some (Some o)
    /\ nearest (far (objects (snd nd))) (objects (snd nd)) o.
Lemma loop_ok : forall ps, (forall nd, In nd ps -> objects (snd nd) <> []) -> forall ls cents, length cents = length ps ->
  (forall z, In z ls -> py_index (length ps) z <> None) ->
  exists cents', foldM (centroid_step ps (dists ps)) ls cents = Ok cents' /\ length cents' = length ps
    /\ forall p, (filled ps cents p \/ exists z, In z ls /\ py_index (length ps) z = Some p) -> filled ps cents' p.
Proof.
  intros ps NE; induction ls as [|z ls IH]; intros cents L H; cbn [foldM].
  - exists cents; split; [reflexivity|split; [exact L|]]; intros p [F|(z & [] & _)]; exact F.
  - destruct (py_index (length ps) z) as [i|] eqn:E; [|exfalso; exact (H z (or_introl eq_refl) E)].
    pose proof (py_index_lt _ _ _ E) as Li.
    destruct (nth_error ps i) as [nd|] eqn:EN; [|apply nth_error_None in EN; lia].
    destruct (step_ok ps cents z i nd L E EN (NE nd (nth_error_In _ _ EN))) as (o & No & ->).
    cbn [bind]; destruct (IH (set_at i (Some o) cents)) as (cents' & E' & L' & F').
    + rewrite set_at_length; exact L.
    + intros y Iy; apply H; right; exact Iy.
    + exists cents'; split; [exact E'|split; [exact L'|]].
      assert (filled ps (set_at i (Some o) cents) i) as Fi.
      { exists nd, o; split; [exact EN|split; [|exact No]].
        rewrite set_at_nth, Nat.eqb_refl by lia; reflexivity. }
      intros p [(nd' & o' & H1 & H2 & H3)|(y & [<-|Iy] & Ey)]; apply F'.
      * left; destruct (Nat.eq_dec i p) as [<-|Np]; [exact Fi|].
        exists nd', o'; split; [exact H1|split; [|exact H3]].
        rewrite set_at_nth, (proj2 (Nat.eqb_neq i p) Np) by lia; exact H2.
      * rewrite E in Ey; injection Ey as <-; left; exact Fi.
      * right; exists y; split; assumption.
Qed.
Lemma loop_err : forall ps, (forall nd, In nd ps -> objects (snd nd) <> []) -> forall ls cents, length cents = length ps ->
  (exists z, In z ls /\ py_index (length ps) z = None) -> foldM (centroid_step ps (dists ps)) ls cents = Err IndexError.
Proof.
  intros ps NE; induction ls as [|z ls IH]; intros cents L (y & I & N); [contradiction|]; cbn [foldM].
  destruct (py_index (length ps) z) as [i|] eqn:E; [|rewrite step_err by exact E; reflexivity].
  pose proof (py_index_lt _ _ _ E) as Li.
  destruct (nth_error ps i) as [nd|] eqn:EN; [|apply nth_error_None in EN; lia].
  destruct (step_ok ps cents z i nd L E EN (NE nd (nth_error_In _ _ EN))) as (o & _ & ->).
  cbn [bind]; apply IH; [rewrite set_at_length; exact L|].
  exists y; split; [|exact N]; destruct I as [<-|I]; [congruence|exact I].
Qed.
End Centroids.

(** ** Selection *)
Lemma picks_combine : forall A B ps (l l' : list A) (m m' : list B), picks ps l l' -> picks ps m m' ->
  picks ps (combine l m) (combine l' m').
Proof.
  intros A B ps l l' m m' P; revert m'; induction P as [|p x ps l' Hp P IH]; intros m' Q;
    inversion Q as [|? y ? m'' Hq Q']; subst; simpl; constructor; [|apply IH; exact Q'].
  clear - Hp Hq; revert l m Hp Hq; induction p as [|p IH]; intros [|a l] [|b m] Hp Hq; simpl in *; try discriminate.
  - injection Hp as <-; injection Hq as <-; reflexivity.
  - apply IH; assumption.
Qed.
Lemma picks_length : forall A ps (l l' : list A), picks ps l l' -> length l' = length ps.
Proof. intros A ps l l' P; induction P; simpl; congruence. Qed.

(** ** Iterating over a dataset *)
Section Iterate.
Context {Obj V : Type}.
Notation objects := (DatasetModel.objects Obj V).
Lemma iterate_empty : forall fuel (d : dataset Obj V) i, objects d = [] -> iterate Obj V fuel d i = Err OutOfFuel.
Proof.
  induction fuel as [|fuel IH]; intros d i E; [reflexivity|]; cbn [iterate].
  unfold getitem; rewrite E; cbn [bind]; rewrite (IH d (S i) E); reflexivity.
Qed.
Lemma iterate_objects : forall (d : dataset Obj V) (l2 l1 : list Obj) fuel, objects d = l1 ++ l2 -> objects d <> [] -> length l2 < fuel ->
  iterate Obj V fuel d (length l1) = Ok (map (fun o => IObject o) l2).
Proof.
  intros d; induction l2 as [|x l2 IH]; intros l1 fuel E NE L; destruct fuel as [|fuel]; try lia; cbn [iterate]; unfold getitem.
  - destruct (objects d) as [|o0 os] eqn:EO; [contradiction|]; rewrite <- EO in *.
    unfold py_get, py_index; rewrite (proj2 (Z.leb_le _ _)) by lia.
    rewrite (proj2 (Z.ltb_ge _ _)) by (rewrite E, app_length; simpl; lia); reflexivity.
  - destruct (objects d) as [|o0 os] eqn:EO; [contradiction|]; rewrite <- EO in *.
    rewrite (py_get_of_nat (objects d) (length l1) x).
    + cbn [bind]; specialize (IH (l1 ++ [x]) fuel); rewrite app_length, Nat.add_1_r in IH; rewrite IH.
      * reflexivity.
      * rewrite <- app_assoc; exact E.
      * congruence.
      * simpl in L; lia.
    + rewrite E, nth_error_app2, Nat.sub_diag by lia; reflexivity.
Qed.
Lemma iterate_all : forall (l : list Obj) fuel, l <> [] -> length l < fuel ->
  iterate Obj V fuel (make Obj V l) 0 = Ok (map (fun o => IObject o) l).
Proof. intros l fuel N L; apply (iterate_objects (make Obj V l) l [] fuel); [reflexivity|exact N|exact L]. Qed.
Lemma iterate_cases : forall fuel (l : list Obj) i, iterate Obj V fuel (make Obj V l) i = Err OutOfFuel \/
  exists r, iterate Obj V fuel (make Obj V l) i = Ok r.
Proof.
  induction fuel as [|fuel IH]; intros l i; [left; reflexivity|]; cbn [iterate]; unfold getitem.
  destruct (objects (make Obj V l)) eqn:EO.
  - cbn [bind]; destruct (IH l (S i)) as [-> | (r & ->)]; [left; reflexivity|right; eexists; reflexivity].
  - rewrite <- EO; unfold py_get.
    destruct (py_index _ _) as [k|]; [destruct (nth_error _ _)|]; cbn [bind]; try (right; eexists; reflexivity).
    destruct (IH l (S i)) as [-> | (r & ->)]; [left; reflexivity|right; eexists; reflexivity].
Qed.

Definition sheet_step (fuel : nat) (ol : list (item Obj V) * list Z) (il : nat * dataset Obj V) :=
  let (os, ls) := ol in
  let (label, sheet) := il in
  let ls' := ls ++ repeat (Z.of_nat label) (length (objects sheet)) in
  let* xs := iterate Obj V fuel sheet 0 in
  Ok (os ++ xs, ls').
Lemma sheets_loop : forall fuel (sheets : list (list Obj)) n os ls,
  (forall s, In s sheets -> s <> [] /\ length s < fuel) ->
  foldM (sheet_step fuel) (combine (seq n (length sheets)) (map (make Obj V) sheets)) (os, ls)
  = Ok (os ++ map (fun o => IObject o) (concat sheets),
        ls ++ concat (map (fun il => repeat (Z.of_nat (fst il)) (length (snd il))) (combine (seq n (length sheets)) sheets))).
Proof.
  intros fuel; induction sheets as [|s sheets IH]; intros n os ls H; cbn [length seq map combine foldM concat].
  - rewrite !app_nil_r; reflexivity.
  - unfold sheet_step at 1; destruct (H s (or_introl eq_refl)) as [N L].
    rewrite (iterate_all s fuel N L); cbn [bind].
    rewrite IH by (intros s' I; apply H; right; exact I).
    rewrite map_app, <- !app_assoc; reflexivity.
Qed.
Lemma sheets_loop_err : forall fuel (sheets : list (list Obj)) n ol, In [] sheets ->
  foldM (sheet_step fuel) (combine (seq n (length sheets)) (map (make Obj V) sheets)) ol = Err OutOfFuel.
Proof.
  intros fuel; induction sheets as [|s sheets IH]; intros n [os ls] I; [contradiction|]; cbn [length seq map combine foldM].
  unfold sheet_step at 1; destruct I as [->|I].
  - rewrite iterate_empty by reflexivity; reflexivity.
  - destruct (iterate_cases fuel s 0) as [-> | (r & ->)]; cbn [bind]; [reflexivity|apply IH; exact I].
Qed.
Lemma sheets_loop_cases : forall fuel (sheets : list (list Obj)) n ol,
  foldM (sheet_step fuel) (combine (seq n (length sheets)) (map (make Obj V) sheets)) ol = Err OutOfFuel
  \/ exists r, foldM (sheet_step fuel) (combine (seq n (length sheets)) (map (make Obj V) sheets)) ol = Ok r.
Proof.
  intros fuel; induction sheets as [|s sheets IH]; intros n [os ls]; cbn [length seq map combine foldM]; [right; eexists; reflexivity|].
  unfold sheet_step at 1 3.
  destruct (iterate_cases fuel s 0) as [-> | (r & ->)]; cbn [bind]; [left; reflexivity|apply IH].
Qed.
End Iterate.

(** ** Names and positions *)
Lemma sorted_id : forall l, StronglySorted (fun s t => String.leb s t = true) l -> sorted_strings l = l.
Proof.
  induction l as [|s l IH]; intros H; [reflexivity|]; inversion H as [|? ? H1 H2]; subst.
  change (sorted_strings (s :: l)) with (insert_string s (sorted_strings l)); rewrite (IH H1).
  destruct l as [|t l]; [reflexivity|]; simpl; inversion H2 as [|? ? E _]; subst; rewrite E; reflexivity.
Qed.
Lemma digit_order : forall z y, (0 <= z <= 9)%Z -> (0 <= y <= 9)%Z -> (z < y)%Z -> String.leb (str_of_Z z) (str_of_Z y) = true.
Proof.
  intros z y Hz Hy L.
  assert (z = 0 \/ z = 1 \/ z = 2 \/ z = 3 \/ z = 4 \/ z = 5 \/ z = 6 \/ z = 7 \/ z = 8 \/ z = 9)%Z as Cz by lia.
  assert (y = 0 \/ y = 1 \/ y = 2 \/ y = 3 \/ y = 4 \/ y = 5 \/ y = 6 \/ y = 7 \/ y = 8 \/ y = 9)%Z as Cy by lia.
  repeat (destruct Cz as [->|Cz]; [repeat (destruct Cy as [->|Cy]; [try lia; reflexivity|]); subst; try lia; reflexivity|]).
  subst z; repeat (destruct Cy as [->|Cy]; [try lia; reflexivity|]); subst; try lia; reflexivity.
Qed.
Lemma sorted_digits : forall l, StronglySorted Z.lt l -> (forall z, In z l -> (0 <= z <= 9)%Z) ->
  sorted_strings (map str_of_Z l) = map str_of_Z l.
Proof.
  intros l H R; apply sorted_id; induction H as [|z l H IH F]; simpl; constructor.
  - apply IH; intros y I; apply R; right; exact I.
  - apply Forall_forall; intros s I; apply in_map_iff in I as (y & <- & I); rewrite Forall_forall in F.
    apply digit_order; [apply R; left; reflexivity|apply R; right; exact I|apply F; exact I].
Qed.
Lemma where_spec : forall (ls : list Z) z,
  let ps := map fst (filter (fun il : nat * Z => (snd il =? z)%Z) (combine (seq 0 (length ls)) ls)) in
  StronglySorted lt ps /\ forall p, In p ps <-> nth_error ls p = Some z.
Proof.
  intros ls z; cbv zeta.
  assert (forall ls b, let ps := map fst (filter (fun il : nat * Z => (snd il =? z)%Z) (combine (seq b (length ls)) ls)) in
            StronglySorted lt ps /\ forall p, In p ps <-> b <= p /\ nth_error ls (p - b) = Some z) as K.
  { clear; induction ls as [|y ls IH]; intros b; simpl.
    - split; [constructor|]; intros p; split; [contradiction|]; intros [_ H]; destruct (p - b); discriminate.
    - destruct (IH (S b)) as [H1 H2].
      assert (forall p, In p (map fst (filter (fun il : nat * Z => (snd il =? z)%Z) (combine (seq (S b) (length ls)) ls)))
                <-> S b <= p /\ nth_error (y :: ls) (p - b) = Some z) as H3.
      { intros p; rewrite H2; split; intros [A B]; (split; [exact A|]).
        - replace (p - b) with (S (p - S b)) by lia; exact B.
        - replace (p - b) with (S (p - S b)) in B by lia; exact B. }
      destruct (y =? z)%Z eqn:E; simpl.
      + apply Z.eqb_eq in E; subst y; split.
        * constructor; [exact H1|]; apply Forall_forall; intros p I; apply H2 in I; lia.
        * intros p; rewrite H3; split.
          -- intros [<-|[A B]]; [split; [lia|rewrite Nat.sub_diag; reflexivity]|split; [lia|exact B]].
          -- intros [A B]; destruct (Nat.eq_dec b p) as [->|N]; [left; reflexivity|right; split; [lia|exact B]].
      + split; [exact H1|]; intros p; rewrite H3; split; intros [A B]; (split; [|exact B]); [lia|].
        destruct (Nat.eq_dec b p) as [->|N]; [|lia].
        rewrite Nat.sub_diag in B; simpl in B; injection B as ->; rewrite Z.eqb_refl in E; discriminate. }
  destruct (K ls 0) as [H1 H2]; split; [exact H1|].
  intros p; rewrite H2, Nat.sub_0_r; split; [tauto|intros H; split; [lia|exact H]].
Qed.

(** ** Labels of sheets *)
Fixpoint tag {A} (b : nat) (sheets : list (list A)) (rest : list A) : list (A * Z) :=
  match sheets with
  | [] => map (fun p => (p, Z.of_nat b)) rest
  | s :: ss => map (fun p => (p, Z.of_nat b)) s ++ tag (S b) ss rest
  end.
Lemma tag_fst : forall A (sheets : list (list A)) b rest, map fst (tag b sheets rest) = concat sheets ++ rest.
Proof.
  intros A; induction sheets as [|s sheets IH]; intros b rest; simpl.
  - rewrite map_map; apply map_id.
  - rewrite map_app, map_map, IH, <- app_assoc; simpl; rewrite map_id; reflexivity.
Qed.
Lemma tag_snd : forall A (sheets : list (list A)) b rest, map snd (tag b sheets rest) =
  concat (map (fun il => repeat (Z.of_nat (fst il)) (length (snd il))) (combine (seq b (length sheets)) sheets))
  ++ repeat (Z.of_nat (b + length sheets)) (length rest).
Proof.
  assert (forall A (z : Z) (l : list A), map snd (map (fun p => (p, z)) l) = repeat z (length l)) as K
    by (intros A z l; rewrite map_map; simpl; induction l; simpl; congruence).
  intros A; induction sheets as [|s sheets IH]; intros b rest; simpl.
  - rewrite Nat.add_0_r; apply K.
  - rewrite map_app, K, IH, <- app_assoc; simpl; replace (b + S (length sheets)) with (S (b + length sheets)) by lia; reflexivity.
Qed.
Lemma tag_range : forall A (sheets : list (list A)) b rest q, In q (tag b sheets rest) ->
  (Z.of_nat b <= snd q <= Z.of_nat (b + length sheets))%Z.
Proof.
  intros A; induction sheets as [|s sheets IH]; intros b rest q I; simpl in I.
  - apply in_map_iff in I as (p & <- & _); simpl; lia.
  - apply in_app_or in I as [I|I]; [apply in_map_iff in I as (p & <- & _); simpl; lia|].
    specialize (IH (S b) rest q I); simpl; lia.
Qed.
Lemma filter_all : forall A (f : A -> bool) l, (forall x, In x l -> f x = true) -> filter f l = l.
Proof. intros A f; induction l as [|x l IH]; intros H; simpl; [reflexivity|]; rewrite (H x (or_introl eq_refl)); f_equal; apply IH; intros y I; apply H; right; exact I. Qed.
Lemma filter_none : forall A (f : A -> bool) l, (forall x, In x l -> f x = false) -> filter f l = [].
Proof. intros A f; induction l as [|x l IH]; intros H; simpl; [reflexivity|]; rewrite (H x (or_introl eq_refl)); apply IH; intros y I; apply H; right; exact I. Qed.
Lemma tag_from : forall A (sheets : list (list A)) b k rest, k <= length sheets ->
  map fst (filter (fun q => (Z.of_nat (b + k) <=? snd q)%Z) (tag b sheets rest)) = concat (skipn k sheets) ++ rest.
Proof.
  intros A; induction sheets as [|s sheets IH]; intros b k rest L.
  - simpl in L; replace k with 0 by lia; rewrite Nat.add_0_r.
    rewrite filter_all, tag_fst; [reflexivity|].
    intros q I; apply tag_range in I; apply Z.leb_le; lia.
  - destruct k as [|k].
    + rewrite Nat.add_0_r, filter_all, tag_fst; [reflexivity|].
      intros q I; apply tag_range in I; apply Z.leb_le; lia.
    + simpl; rewrite filter_app, filter_none.
      * simpl; replace (b + S k) with (S b + k) by lia; apply IH; simpl in L; lia.
      * intros q I; apply in_map_iff in I as (p & <- & _); apply Z.leb_gt; simpl; lia.
Qed.
Lemma tag_at : forall A (sheets : list (list A)) b k rest s, nth_error sheets k = Some s ->
  map fst (filter (fun q => (snd q =? Z.of_nat (b + k))%Z) (tag b sheets rest)) = s.
Proof.
  intros A; induction sheets as [|s0 sheets IH]; intros b k rest s E; [destruct k; discriminate|].
  destruct k as [|k]; simpl in E.
  - injection E as <-; rewrite Nat.add_0_r; simpl; rewrite filter_app, filter_all, (filter_none _ _ (tag _ _ _)), app_nil_r, map_map; [apply map_id| |].
    + intros q I; apply tag_range in I; apply Z.eqb_neq; lia.
    + intros q I; apply in_map_iff in I as (p & <- & _); apply Z.eqb_refl.
  - simpl; rewrite filter_app, filter_none.
    + simpl; replace (b + S k) with (S b + k) by lia; apply IH; exact E.
    + intros q I; apply in_map_iff in I as (p & <- & _); apply Z.eqb_neq; simpl; lia.
Qed.

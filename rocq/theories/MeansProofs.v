(** Proofs on the means of clusters. *)
From Coq Require Import ZArith QArith List Bool String Lia Permutation.
From Verif Require Import Base BaseProofs DatasetModel DatasetSpec DatasetProofs DatasetProps ClusterModel ClusterSpec ClusterProofs ClusterProps
  MetricsModel MeansModel MeansSpec.
Import ListNotations.
Open Scope Q_scope.
Open Scope list_scope.

Lemma py_sum_total l : py_sum l == total l.
Proof.
  unfold py_sum. assert (H : forall l a, fold_left Qplus l a == a + total l).
  { clear l. induction l as [|x l IH]; intros a; cbn [fold_left total fold_right]; [ring|]. rewrite IH. unfold total. ring. }
  rewrite H. ring.
Qed.
Lemma size_pos {A} (l : list A) : l <> [] -> ~ size l == 0.
Proof.
  intros N H. destruct l as [|x l]; [congruence|]. unfold size in H. change 0 with (inject_Z 0) in H. rewrite inject_Z_injective in H.
  cbn [List.length] in H. lia.
Qed.
Lemma mean_ok l : l <> [] -> exists x, mean l = Ok x /\ size l * x == total l.
Proof.
  intros N. unfold mean, py_div, len. fold (size l). pose proof (size_pos l N) as P.
  destruct (Qeq_bool (size l) 0) eqn:E; [apply Qeq_bool_iff in E; contradiction|]. eexists. split; [reflexivity|].
  rewrite py_sum_total. field. exact P.
Qed.
Lemma total_perm l l' : Permutation l l' -> total l == total l'.
Proof. intros P. induction P; cbn [total fold_right]; [reflexivity|unfold total in IHP; rewrite IHP; reflexivity|ring|rewrite IHP1; exact IHP2]. Qed.
Lemma total_app l l' : total (l ++ l') == total l + total l'.
Proof. unfold total. induction l as [|x l IH]; cbn [fold_right app]; [ring|]. rewrite IH. ring. Qed.

Lemma zip_cols {A B} (R : A -> B -> Q -> Prop) (objs : list A) : forall (names : list B) m,
  Forall2 (fun o row => Forall2 (R o) names row) objs m ->
  Forall2 (fun a col => Forall2 (fun o v => R o a v) objs col) names (zip_columns Q (List.length names) m).
Proof.
  induction names as [|a names IH]; intros m F; cbn; constructor.
  - clear IH. induction F as [|o row objs m H F IH]; cbn; [constructor|]. inversion H as [|? v ? r Hv Hr]; subst. cbn. constructor; assumption.
  - apply IH. clear IH. induction F as [|o row objs m H F IH]; cbn; constructor; [|exact IH].
    inversion H as [|? v ? r Hv Hr]; subst. exact Hr.
Qed.
Lemma zip_all_length m n : m <> [] -> Forall (fun row : list Q => List.length row = n) m -> zip_all Q m = zip_columns Q n m.
Proof.
  intros N F. destruct m as [|r m]; [congruence|]. unfold zip_all. inversion F as [|? ? E F']; subst. f_equal.
  clear N F. induction F' as [|r' m' E' F IH]; cbn; [reflexivity|]. rewrite IH, E'. apply Nat.min_id.
Qed.

Section Means.
Variable Obj : Type.
Variable cls : Obj -> nat.
Variable vector_features : Obj -> list string.
Variable to_vector : Obj -> list Q.
Notation reads := (reads vector_features to_vector).
Notation average := (average vector_features to_vector).
Notation averages := (averages vector_features to_vector).

Lemma dataset_mean_ok d : sound vector_features to_vector cls d -> well_described vector_features to_vector cls (objects Obj Q d) -> objects Obj Q d <> [] ->
  exists m, dataset_mean Obj cls vector_features to_vector d = Ok m /\ Forall2 (average (objects Obj Q d)) (common_attributes Obj Q cls vector_features d) m.
Proof.
  intros S W N. unfold dataset_mean. destruct (C30_matrix Obj Q cls vector_features to_vector d S W) as (rows & d' & -> & _ & _ & _ & F).
  cbn [bind fst]. set (names := common_attributes Obj Q cls vector_features d) in *.
  rewrite (zip_all_length rows (List.length names)).
  2:{ intros ->. inversion F. congruence. }
  2:{ clear - F. induction F; constructor; auto. symmetry. eapply Forall2_len; eassumption. }
  pose proof (zip_cols reads _ _ _ F) as C. revert C. generalize (zip_columns Q (List.length names) rows) as cols. clear F.
  induction names as [|a names IH]; intros cols C; inversion C as [|? col ? cols' H1 H2]; subst.
  - exists []. split; [reflexivity|constructor].
  - destruct (IH cols' H2) as (m & E & G). destruct (mean_ok col) as (x & Ex & Hx).
    { intros ->. inversion H1. congruence. }
    exists (x :: m). cbn [mapM]. rewrite Ex. cbn [bind]. rewrite E. split; [reflexivity|]. constructor; [|exact G].
    exists col. split; [exact H1|]. rewrite <- Hx. unfold size. rewrite (Forall2_len _ _ _ _ _ H1). reflexivity.
Qed.

Lemma make_mean_ok l : well_described vector_features to_vector cls l -> l <> [] ->
  exists m, dataset_mean Obj cls vector_features to_vector (make Obj Q l) = Ok m /\ averages l m.
Proof.
  intros W N. destruct (C30_make Obj Q cls vector_features to_vector l W) as [S I].
  destruct (dataset_mean_ok (make Obj Q l) S W N) as (m & E & F). exists m. split; [exact E|]. cbn [objects make] in F. eexists.
  split; [|split; [|exact F]].
  - apply compute_common_nodup.
  - intros a. rewrite I. tauto.
Qed.

(** the component of an object *)
Definition component (a : string) (o : Obj) : Q :=
  match matrix_row Obj Q vector_features to_vector [a] o with Ok [v] => v | _ => 0 end.
Lemma reads_component o a v : reads o a v -> component a o = v.
Proof.
  intros R. assert (F : Forall2 (reads o) [a] [v]) by (constructor; [exact R|constructor]). unfold component. apply matrix_row_ok in F.
  rewrite F. reflexivity.
Qed.
Lemma column_component a l col : Forall2 (fun o v => reads o a v) l col -> col = map (component a) l.
Proof. intros F. induction F as [|o v l col R F IH]; cbn; [reflexivity|]. rewrite (reads_component _ _ _ R), IH. reflexivity. Qed.
End Means.

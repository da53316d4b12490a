(** C90: the means of clusters. *)
From Coq Require Import ZArith QArith List Bool String Lia Permutation.
From Verif Require Import Base BaseProofs DatasetModel DatasetSpec DatasetProofs DatasetProps ClusterModel ClusterSpec ClusterProofs ClusterProps
  MetricsModel MeansModel MeansSpec MeansProofs.
Import ListNotations.
Open Scope Q_scope.
Open Scope list_scope.

Section Props.
Variable Obj : Type.
Variable cls : Obj -> nat.
Variable vector_features : Obj -> list string.
Variable to_vector : Obj -> list Q.
Variable set_list others : list Z -> list Z.
Notation average := (average vector_features to_vector).
Notation averages := (averages vector_features to_vector).
Notation dataset_mean := (dataset_mean Obj cls vector_features to_vector).
Notation mean_clusters := (mean_clusters Obj cls vector_features to_vector set_list others).
Notation well_described := (well_described vector_features to_vector cls).
Notation sound := (sound vector_features to_vector cls).

(** The mean of a dataset has the average of each of its common attributes, in their order. *)
Theorem C90_mean : forall d, sound d -> well_described (objects Obj Q d) -> objects Obj Q d <> [] ->
  exists m, dataset_mean d = Ok m /\ Forall2 (average (objects Obj Q d)) (common_attributes Obj Q cls vector_features d) m.
Proof. apply dataset_mean_ok. Qed.

Lemma described_sub l l' : (forall o, In o l' -> In o l) -> well_described l -> well_described l'.
Proof. intros I [A B]. split; [intros o H; apply A, I, H|intros o o' H H'; apply B; apply I; assumption]. Qed.
Lemma members_in z (l : list (Obj * Z)) o : In o (members z l) -> In o (map fst l).
Proof. unfold members. rewrite !in_map_iff. intros (q & E & H). apply filter_In in H as [H _]. eauto. Qed.
Lemma labelled_in (c : clustered Obj Q) o : In o (map fst (labelled c)) -> In o (objects Obj Q (base Obj Q c)).
Proof. unfold labelled. rewrite in_map_iff. intros ([o' z] & <- & H). apply in_combine_l in H. exact H. Qed.

Lemma parts_made name c s : clustered_sublists Obj Q set_list others name c = Ok s ->
  Forall (fun part => snd part = make Obj Q (objects Obj Q (snd part))) (parts Obj Q s).
Proof.
  unfold clustered_sublists. destruct (foldM _ _ _) as [filled|]; [|discriminate]. cbn [bind]. intros E. injection E as <-. cbn.
  apply Forall_map. apply Forall_forall. intros; reflexivity.
Qed.

Lemma means_ok (c : clustered Obj Q) zs ps : well_described (objects Obj Q (base Obj Q c)) ->
  Forall2 (fun z part => objects Obj Q (snd part) = members z (labelled c) /\ objects Obj Q (snd part) <> []) zs ps ->
  Forall (fun part : string * dataset Obj Q => snd part = make Obj Q (objects Obj Q (snd part))) ps ->
  exists ms, mapM (fun part => dataset_mean (snd part)) ps = Ok ms /\ Forall2 (fun z m => averages (members z (labelled c)) m) zs ms.
Proof.
  intros W F. induction F as [|z part zs ps [E N] F IH]; intros M.
  - exists []. split; [reflexivity|constructor].
  - inversion M as [|? ? E' M']; subst. destruct (IH M') as (ms & Ems & G).
    destruct (make_mean_ok Obj cls vector_features to_vector (members z (labelled c))) as (m & Em & A).
    { apply (described_sub (objects Obj Q (base Obj Q c))); [|exact W]. intros o H. apply labelled_in. eapply members_in; eassumption. }
    { rewrite <- E. exact N. }
    exists (m :: ms). cbn [mapM]. rewrite E', E, Em. cbn [bind]. rewrite Ems. split; [reflexivity|constructor; assumption].
Qed.

(** The means of clusters are, for each label, the averages of the objects of this label. *)
Theorem C90_clusters : lists_set set_list -> lists_others others ->
  forall name c, one_label_each c -> well_described (objects Obj Q (base Obj Q c)) -> objects Obj Q (base Obj Q c) <> [] ->
  exists zs ms, mean_clusters name c = Ok ms /\ NoDup zs /\ (forall z, In z zs <-> In z (labels Obj Q c)) /\
    Forall2 (fun z m => averages (members z (labelled c)) m) zs ms.
Proof.
  intros LS LO name c O W N. destruct (C51_split Obj Q set_list others LS LO name c O) as (s & zs & E & ND & I & F & _ & _).
  destruct (means_ok c zs (parts Obj Q s) W F (parts_made _ _ _ E)) as (ms & Em & G).
  exists zs, ms. split; [|auto]. unfold MeansModel.mean_clusters. destruct (objects Obj Q (base Obj Q c)); [congruence|].
  rewrite E. exact Em.
Qed.

Lemma averages_entry l m a : averages l m -> (forall o, In o l -> In a (vector_features o)) -> exists x, In x m /\ average l a x.
Proof.
  intros (names & _ & I & F) H. apply I in H. clear I. induction F as [|b x names m A F IH]; [destruct H|].
  destruct H as [->|H]; [exists x; split; [left; reflexivity|exact A]|]. destruct (IH H) as (y & Iy & Ay). exists y. split; [right; exact Iy|exact Ay].
Qed.
Lemma average_total l a x : average l a x -> size l * x == total (map (component Obj vector_features to_vector a) l).
Proof. intros (col & F & E). rewrite E, (column_component _ _ _ _ _ _ F). reflexivity. Qed.

(** For an attribute of all objects, the means of clusters weighted by their sizes give the mean of the dataset. *)
Theorem C90_total : lists_set set_list -> lists_others others ->
  forall name c a, one_label_each c -> sound (base Obj Q c) -> well_described (objects Obj Q (base Obj Q c)) -> objects Obj Q (base Obj Q c) <> [] ->
  In a (common_attributes Obj Q cls vector_features (base Obj Q c)) ->
  exists zs ms xs m x, mean_clusters name c = Ok ms /\ dataset_mean (base Obj Q c) = Ok m /\
    NoDup zs /\ (forall z, In z zs <-> In z (labels Obj Q c)) /\
    Forall2 (fun m x => In x m) ms xs /\ Forall2 (fun z x => average (members z (labelled c)) a x) zs xs /\
    In x m /\ average (objects Obj Q (base Obj Q c)) a x /\
    total (map (fun zx => size (members (fst zx) (labelled c)) * snd zx) (combine zs xs)) == size (objects Obj Q (base Obj Q c)) * x.
Proof.
  intros LS LO name c a O S W N Ia. destruct (C51_split Obj Q set_list others LS LO name c O) as (s & zs & E & ND & I & F & P & _).
  destruct (means_ok c zs (parts Obj Q s) W F (parts_made _ _ _ E)) as (ms & Em & G).
  destruct (C90_mean (base Obj Q c) S W N) as (m & Emm & Fm).
  assert (X : exists x, In x m /\ average (objects Obj Q (base Obj Q c)) a x).
  { clear - Fm Ia. induction Fm as [|b x names m A F IH]; [destruct Ia|]. destruct Ia as [->|H]; [exists x; split; [left; reflexivity|exact A]|].
    destruct (IH H) as (y & Iy & Ay). exists y. split; [right; exact Iy|exact Ay]. }
  destruct X as (x & Ix & Ax).
  assert (AF : forall o, In o (objects Obj Q (base Obj Q c)) -> In a (vector_features o)) by (intros o H; apply (proj1 S); assumption).
  assert (XS : exists xs, Forall2 (fun m x => In x m) ms xs /\ Forall2 (fun z x => average (members z (labelled c)) a x) zs xs).
  { clear - G AF. induction G as [|z m zs ms A G IH]; [exists []; split; constructor|]. destruct IH as (xs & H1 & H2).
    destruct (averages_entry _ _ a A) as (x & Ix & Ax). { intros o H. apply AF. apply labelled_in. eapply members_in; eassumption. }
    exists (x :: xs). split; constructor; assumption. }
  assert (EM : mean_clusters name c = Ok ms).
  { unfold MeansModel.mean_clusters. destruct (objects Obj Q (base Obj Q c)); [congruence|]. rewrite E. exact Em. }
  destruct XS as (xs & H1 & H2). exists zs, ms, xs, m, x. repeat (split; [first [assumption | apply I]|]).
  rewrite (average_total _ _ _ Ax).
  assert (P' : Permutation (List.concat (map (fun z => members z (labelled c)) zs)) (objects Obj Q (base Obj Q c))).
  { rewrite <- P. clear - F. induction F as [|z part zs ps [E _] F IH]; cbn; [reflexivity|]. rewrite E. apply Permutation_app_head. exact IH. }
  rewrite <- (total_perm _ _ (Permutation_map _ P')). clear - H2.
  induction H2 as [|z x zs xs A H2 IH]; [reflexivity|]. cbn [combine map List.concat fst snd]. rewrite map_app, total_app.
  change (total (?u :: ?v)) with (u + total v). rewrite IH, (average_total _ _ _ A). reflexivity.
Qed.

(** No object, no mean. *)
Theorem C90_empty : forall name c, objects Obj Q (base Obj Q c) = [] -> mean_clusters name c = Err IndexError.
Proof. intros name c E. unfold MeansModel.mean_clusters. rewrite E. reflexivity. Qed.
End Props.

(** ** Examples *)
Local Open Scope string_scope.
(** cars with a weight and a power, bikes with a weight only *)
Inductive ex_thing := Car (weight power : Q) | Bike (weight : Q).
Definition ex_cls (o : ex_thing) : nat := match o with Car _ _ => 0 | Bike _ => 1 end.
Definition ex_features (o : ex_thing) := match o with Car _ _ => ["weight"; "power"] | Bike _ => ["weight"] end.
Definition ex_vec (o : ex_thing) := match o with Car w p => [w; p] | Bike w => [w] end.
Definition ex_means l ls := mean_clusters ex_thing ex_cls ex_features ex_vec (ex_set 8) (ex_others 8) "things" (cluster ex_thing Q l (Some ls)).
Definition reduced (r : res (list (list Q))) := match r with Ok l => Ok (map (map Qred) l) | Err e => Err e end.
Example C90_clusters_ex : reduced (ex_means [Car 1000 50; Car 1500 80; Car 2000 70] [0; 1; 0]%Z) = Ok [[1500; 60]; [1500; 80]].
Proof. vm_compute. reflexivity. Qed.
Example C90_total_ex : 2 * 1500 + 1 * 1500 == 3 * ((1000 + 1500 + 2000) / 3).
Proof. reflexivity. Qed.
Example C90_mean_ex : (let* m := dataset_mean ex_thing ex_cls ex_features ex_vec (make ex_thing Q [Car 1000 50; Bike 10]) in Ok (map Qred m)) = Ok [505].
Proof. vm_compute. reflexivity. Qed.
Example C90_empty_ex : ex_means [] [] = Err IndexError.
Proof. reflexivity. Qed.

(** The means of clusters of a dataset may have different lengths, and other attributes than the dataset. *)
Theorem C90_widths_refuted : exists l ls ms m, (forall o, In o l -> List.length (ex_vec o) = List.length (ex_features o)) /\
  List.length ls = List.length l /\ ex_means l ls = Ok ms /\ dataset_mean ex_thing ex_cls ex_features ex_vec (make ex_thing Q l) = Ok m /\
  map (@List.length Q) ms = [2; 1]%nat /\ List.length m = 1%nat.
Proof.
  exists [Car 1000 50; Bike 10], [0; 1]%Z. do 2 eexists. split; [intros o [<-|[<-|[]]]; reflexivity|].
  split; [reflexivity|]. split; [vm_compute; reflexivity|]. split; [vm_compute; reflexivity|]. split; reflexivity.
Qed.

Print Assumptions C90_mean.
Print Assumptions C90_clusters.
Print Assumptions C90_total.
Print Assumptions C90_empty.
Print Assumptions C90_widths_refuted.

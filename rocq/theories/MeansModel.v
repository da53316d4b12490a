(** Model of the means of datasets and of clusters (/repo/dessia_common/datatools/dataset.py:440-454,
    /repo/dessia_common/datatools/cluster.py:154-184), over datasets, clusters and metrics of DatasetModel, ClusterModel and
    MetricsModel.

    Simplification: numbers are rationals, without rounding. *)
From Coq Require Import ZArith QArith List Bool String.
From Verif Require Import Base DatasetModel ClusterModel MetricsModel.
Import ListNotations.

Section Means.
Variable Obj : Type.
Variable cls : Obj -> nat.
Variable vector_features : Obj -> list string.
Variable to_vector : Obj -> list Q.
Variable set_list others : list Z -> list Z.

(** Dataset.mean, dataset.py:440-454 *)
Definition dataset_mean (d : dataset Obj Q) : res (list Q) :=
  let* m := matrix Obj Q cls vector_features to_vector d in
  mapM mean (zip_all Q (fst m)).

(** mean_clusters, cluster.py:159-184, with _check_transform_sublists, 154-157, for a ClusteredDataset that is not split *)
Definition mean_clusters (name : string) (c : clustered Obj Q) : res (list (list Q)) :=
  match objects Obj Q (base Obj Q c) with
  | [] => Err IndexError
  | _ =>
    let* s := clustered_sublists Obj Q set_list others name c in
    mapM (fun part => dataset_mean (snd part)) (parts Obj Q s)
  end.
End Means.

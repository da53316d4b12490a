(** Model of clustered datasets (dessia_common/datatools/cluster.py): datasets whose objects have
    a label each.

    Simplifications: the clustering algorithms of sklearn are not modelled, a clustering is any
    list of labels; [mean] and [distance] are functions of the objects (C34 is about the
    distances); [self[:]] of a split dataset is the split dataset. *)
From Coq Require Import ZArith QArith Bool Decimal DecimalString String List.
From Verif Require Import Base DatasetModel ParetoModel.
Import ListNotations.
Open Scope string_scope.
Open Scope list_scope.
Open Scope nat_scope.

(** [str(z)] *)
Definition str_of_Z (z : Z) : string := NilZero.string_of_int (Z.to_int z).
(** [sorted] of a list of strings *)
Fixpoint insert_string (s : string) (l : list string) : list string :=
  match l with
  | [] => [s]
  | t :: l' => if String.leb s t then s :: l else t :: insert_string s l'
  end.
Definition sorted_strings (l : list string) : list string := fold_right insert_string [] l.

(** [l[i].append(x)] *)
Fixpoint append_at {A} (i : nat) (x : A) (l : list (list A)) : res (list (list A)) :=
  match l with
  | [] => Err IndexError
  | y :: l' => match i with
               | O => Ok ((y ++ [x]) :: l')
               | S i' => let* r := append_at i' x l' in Ok (y :: r)
               end
  end.
(** [l[z] = x] *)
Fixpoint set_at {A} (i : nat) (x : A) (l : list A) : list A :=
  match l with
  | [] => []
  | y :: l' => match i with O => x :: l' | S i' => y :: set_at i' x l' end
  end.
Definition py_set {A} (l : list A) (z : Z) (x : A) : res (list A) :=
  match py_index (length l) z with Some i => Ok (set_at i x l) | None => Err IndexError end.
(** [min(l)] *)
Definition py_min {D} (lt : D -> D -> bool) (l : list D) : res D :=
  match l with
  | [] => Err ValueError
  | x :: l' => Ok (fold_left (fun m y => if lt y m then y else m) l' x)
  end.
(** [enumerate(l)] *)
Definition enumerate {A} (l : list A) : list (nat * A) := combine (seq 0 (length l)) l.

Section Cluster.
Variable Obj V : Type.
Variable cls : Obj -> nat.
Variable vector_features : Obj -> list string.
Variable to_vector : Obj -> list V.
Variable getattr : Obj -> string -> option V.
Variable argsort : list V -> list nat.
(** [list(set(l))] and [list(set(l).difference({-1}))]: the order of a set is not specified *)
Variable set_list others : list Z -> list Z.

Notation dataset := (dataset Obj V).
Notation objects := (objects Obj V).
Notation make := (make Obj V).

Record clustered := { base : dataset; labels : list Z }.
(** ClusteredDataset.__init__, cluster.py:58-63 *)
Definition cluster (l : list Obj) (ls : option (list Z)) : clustered :=
  {| base := {| plain := false; DatasetModel.objects := l; common := None; cached := None |};
     labels := match ls with Some ls => ls | None => map (fun _ => 0%Z) l end |}.
(** n_clusters, cluster.py:65-70 *)
Definition n_clusters (ls : list Z) : nat := length (filter (fun z => negb (z =? -1)%Z) (set_list ls)).

(** _pick_from_slice, cluster.py:80-84 *)
Definition cluster_slice (c : clustered) (start stop step : option Z) : res clustered :=
  let* d := pick_from_slice Obj V (base c) start stop step in
  let* ps := slice_positions (length (labels c)) start stop step in
  Ok {| base := d; labels := take (labels c) ps |}.
(** _pick_from_boolist, cluster.py:86-90 *)
Definition cluster_mask (c : clustered) (l : list bool) : clustered :=
  {| base := pick_from_boolist Obj V (base c) l; labels := compress (labels c) l |}.
(** [c[key]]: Dataset.__getitem__, dataset.py:99-125, with the methods above *)
Inductive citem := CEmpty | CObject (o : Obj) | CDataset (c : clustered).
Definition cluster_getitem (c : clustered) (k : key) : res citem :=
  match objects (base c) with
  | [] => Ok CEmpty
  | _ =>
    match k with
    | KInt z => let* o := py_get (objects (base c)) z in Ok (CObject o)
    | KSlice b e s => let* c' := cluster_slice c b e s in Ok (CDataset c')
    | KBools [] | KInts [] => Ok (CDataset (cluster [] None))
    | KBools l => if Nat.eqb (length l) (length (objects (base c))) then Ok (CDataset (cluster_mask c l))
                  else Err ValueError
    | KInts l => let* bl := indexlist_to_booleanlist Obj V (base c) l in Ok (CDataset (cluster_mask c bl))
    | KList | KOther => Err NotImplementedError
    end
  end.
(** sort, dataset.py:392-438, which ClusteredDataset does not redefine *)
Definition cluster_sort (c : clustered) (k : sort_key) (ascend : bool) : res clustered :=
  let* d := sort Obj V cls vector_features to_vector getattr argsort (base c) k ascend in
  Ok {| base := d; labels := labels c |}.

(** ** Splitting and merging *)
(** A ClusteredDataset of datasets: their names, the datasets, the labels *)
Record split := { parts : list (string * dataset); split_labels : list Z; split_name : string }.
(** clustered_sublists, cluster.py:105-152 *)
Definition has_outliers (ls : list Z) : bool := memb Z.eqb (-1)%Z ls.
Definition clustered_sublists (name : string) (c : clustered) : res split :=
  let ls := labels c in
  let label_tags := sorted_strings (map str_of_Z (others ls)) ++ (if has_outliers ls then ["outliers"] else []) in
  let unic_labels := set_list ls in
  let sublists := repeat [] (n_clusters ls) ++ (if has_outliers ls then [[]] else []) in
  let* filled := foldM (fun subs (il : nat * Z) =>
                          let (idx, label) := il in
                          let* p := of_option ValueError (index_of Z.eqb label unic_labels) in
                          let* o := of_option IndexError (nth_error (objects (base c)) idx) in
                          append_at p o subs)
                       (enumerate ls) sublists in
  Ok {| parts := map (fun ts => ((name ++ "_" ++ fst ts)%string, make (snd ts))) (combine label_tags filled);
        split_labels := others ls ++ (if has_outliers ls then [(-1)%Z] else []);
        split_name := (name ++ "_split")%string |}.

(** _merge_sublists, cluster.py:285-292. When the first dataset is empty, [self.dessia_objects[0][:]]
    is a python list, which has no attribute dessia_objects. *)
Definition merge_sublists (s : split) : res clustered :=
  match parts s with
  | [] => Err IndexError
  | (_, first) :: rest =>
    let* whole := getitem Obj V first (KSlice None None None) in
    match whole with
    | IDataset merged =>
      let* label := py_get (split_labels s) 0 in
      let* (m, ls) := foldM (fun (ml : dataset * list Z) (dl : (string * dataset) * Z) =>
                               let (m, ls) := ml in
                               let* m' := extend Obj V cls vector_features m (snd (fst dl)) in
                               Ok (m', ls ++ repeat (snd dl) (length (objects (snd (fst dl))))))
                            (combine rest (tl (split_labels s)))
                            (merged, repeat label (length (objects merged))) in
      Ok (cluster (objects m) (Some ls))
    | _ => Err AttributeError
    end
  end.

(** ** Centroids *)
Section Centroids.
Variable M D : Type.
(** mean of a dataset (dataset.py:440-454) and distance (scipy's cdist) of an object to it *)
Variable mean : list Obj -> M.
Variable distance : M -> Obj -> D.
Variable lt eqb : D -> D -> bool.

(** cluster_distances, cluster.py:226-232, on the split dataset *)
Definition distances (s : split) : list (list D) :=
  let means := map (fun nd => mean (objects (snd nd))) (parts s) in
  map (fun md => map (distance (fst md)) (objects (snd (snd md)))) (combine means (parts s)).
(** cluster_real_centroids, cluster.py:275-283; None stands for the initial empty lists *)
Definition real_centroids (name : string) (c : clustered) : res (list (option Obj)) :=
  match objects (base c) with
  | [] => Err IndexError
  | _ =>
    let* s := clustered_sublists name c in
    let cluster_distances := distances s in
    foldM (fun cents label =>
             let* ds := py_get cluster_distances label in
             let* m := py_min lt ds in
             let* min_idx := of_option ValueError (index_of eqb m ds) in
             let* part := py_get (parts s) label in
             let* o := py_get (objects (snd part)) (Z.of_nat min_idx) in
             py_set cents label (Some o))
          (split_labels s) (map (fun _ => None) (split_labels s))
  end.
End Centroids.

(** _point_families, cluster.py:313-325: the name and the positions of each family *)
Definition where_label (ls : list Z) (z : Z) : list nat :=
  map fst (filter (fun il => (snd il =? z)%Z) (enumerate ls)).
Definition point_families (c : clustered) : list (string * list nat) :=
  let ls := labels c in
  map (fun i => (("Cluster " ++ str_of_Z (Z.of_nat i))%string, where_label ls (Z.of_nat i))) (seq 0 (n_clusters ls))
  ++ (if has_outliers ls then [("Excluded", where_label ls (-1)%Z)] else []).

(** ** Pareto sheets as clusters *)
(** [list(dataset)]: dataset[0], dataset[1], ... until IndexError *)
Fixpoint iterate (fuel : nat) (d : dataset) (i : nat) : res (list (item Obj V)) :=
  match fuel with
  | O => Err OutOfFuel
  | S fuel' =>
    match getitem Obj V d (KInt (Z.of_nat i)) with
    | Err IndexError => Ok []
    | Err e => Err e
    | Ok x => let* r := iterate fuel' d (S i) in Ok (x :: r)
    end
  end.
(** from_pareto_sheets, cluster.py:516-544, given the sheets and the points which are left: the
    elements of the clustered dataset and their labels *)
Definition from_sheets (fuel : nat) (sheets : list dataset) (rest : dataset) : res (list (item Obj V) * list Z) :=
  let* (os, ls) := foldM (fun (ol : list (item Obj V) * list Z) (il : nat * dataset) =>
                            let (os, ls) := ol in
                            let (label, sheet) := il in
                            let ls' := ls ++ repeat (Z.of_nat label) (length (objects sheet)) in
                            let* xs := iterate fuel sheet 0 in
                            Ok (os ++ xs, ls'))
                         (enumerate sheets) ([], []) in
  let* xs := iterate fuel rest 0 in
  Ok (os ++ xs, ls ++ repeat (Z.of_nat (length sheets)) (length (objects rest))).
(** the same with pareto_sheets (dataset.py:879-902) on exact costs *)
Definition from_pareto_sheets (fuel : nat) (std : list cell -> cell) (nb_sheets : nat) (os : list Obj) (costs : list (list Q)) :
    res (list (item Obj V) * list Z) :=
  let (sheets, rest) := exact_sheets std nb_sheets os costs in
  from_sheets fuel (map make sheets) (make rest).
End Cluster.
Arguments CEmpty {Obj V}.
Arguments CObject {Obj V} o.
Arguments CDataset {Obj V} c.

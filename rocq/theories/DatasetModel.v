(** Model of datasets (dessia_common/datatools/dataset.py): selection, concatenation, the data
    matrix and sorting.

    Simplifications: names of datasets are not modelled; [vector_features] and [to_vector] are
    functions of the object (core.py:633-645); the list of objects only changes through the
    operations below. *)
From Coq Require Import ZArith Bool String List.
From Verif Require Import Base.
Import ListNotations.
Open Scope string_scope.
Open Scope list_scope.
Open Scope nat_scope.

(** [l[z] = True] *)
Fixpoint mark (i : nat) (l : list bool) : list bool :=
  match l with
  | [] => []
  | b :: l' => match i with O => true :: l' | S i' => b :: mark i' l' end
  end.
Definition py_mark (l : list bool) (z : Z) : res (list bool) :=
  match py_index (length l) z with Some i => Ok (mark i l) | None => Err IndexError end.

(** The positions designated by a slice (python's slice.indices and range). *)
Definition clip (n z : Z) (low high : Z) : Z :=
  let z' := if (z <? 0)%Z then (z + n)%Z else z in
  if (z' <? low)%Z then low else if (high <? z')%Z then high else z'.
Fixpoint range (fuel : nat) (start stop step : Z) : list nat :=
  match fuel with
  | O => []
  | S fuel' =>
    if (if (0 <? step)%Z then (start <? stop)%Z else (stop <? start)%Z)
    then Z.to_nat start :: range fuel' (start + step) stop step
    else []
  end.
Definition slice_positions (n : nat) (start stop step : option Z) : res (list nat) :=
  let len := Z.of_nat n in
  let st := match step with Some s => s | None => 1%Z end in
  if (st =? 0)%Z then Err ValueError
  else if (0 <? st)%Z then
    let b := match start with Some z => clip len z 0 len | None => 0%Z end in
    let e := match stop with Some z => clip len z 0 len | None => len end in
    Ok (range n b e st)
  else
    let b := match start with Some z => clip len z (-1) (len - 1) | None => (len - 1)%Z end in
    let e := match stop with Some z => clip len z (-1) (len - 1) | None => (-1)%Z end in
    Ok (range n b e st).
Definition take {A} (l : list A) (ps : list nat) : list A :=
  flat_map (fun p => match nth_error l p with Some x => [x] | None => [] end) ps.

(** The keys of [dataset[key]] *)
Inductive key :=
| KInt (z : Z)
| KSlice (start stop step : option Z)
| KBools (l : list bool)      (* a list whose first element is a boolean *)
| KInts (l : list Z)
| KList                       (* a list of something else *)
| KOther.

Section Dataset.
(** objects, the values of their attributes *)
Variable Obj V : Type.
Variable cls : Obj -> nat.
Variable vector_features : Obj -> list string.
Variable to_vector : Obj -> list V.
(** getattr: None when it raises AttributeError *)
Variable getattr : Obj -> string -> option V.
(** npy.argsort *)
Variable argsort : list V -> list nat.

Record dataset := { plain : bool;                (* the class is Dataset, not a subclass *)
                    objects : list Obj;
                    common : option (list string);     (* _common_attributes *)
                    cached : option (list (list V)) }. (* _matrix *)
(** Dataset.__init__, dataset.py:90-97 *)
Definition make (l : list Obj) : dataset := {| plain := true; objects := l; common := None; cached := None |}.

(** common_attributes, dataset.py:288-312 *)
Fixpoint one_instance (seen : list nat) (l : list Obj) : list Obj :=
  match l with
  | [] => []
  | o :: l' => if memb Nat.eqb (cls o) seen then one_instance seen l' else o :: one_instance (cls o :: seen) l'
  end.
Definition compute_common (l : list Obj) : list string :=
  match l with
  | [] => []
  | _ => let instances := one_instance [] l in
         let all_attributes := flat_map vector_features instances in
         let in_all a := forallb (fun o => memb String.eqb a (vector_features o)) instances in
         dedup String.eqb [] (filter in_all all_attributes)
  end.
Definition common_attributes (d : dataset) : list string :=
  match common d with Some c => c | None => compute_common (objects d) end.
(** the cache is only filled when there are objects *)
Definition keep_common (d : dataset) : option (list string) :=
  match common d, objects d with
  | Some c, _ => Some c
  | None, [] => None
  | None, _ => Some (compute_common (objects d))
  end.

(** matrix, dataset.py:314-328 *)
Definition matrix_row (attributes : list string) (o : Obj) : res (list V) :=
  mapM (fun a => match index_of String.eqb a (vector_features o) with
                 | None => Err ValueError
                 | Some i => match nth_error (to_vector o) i with Some v => Ok v | None => Err IndexError end
                 end) attributes.
Definition matrix (d : dataset) : res (list (list V) * dataset) :=
  match cached d with
  | Some m => Ok (m, d)
  | None =>
    let* m := mapM (matrix_row (common_attributes d)) (objects d) in
    Ok (m, {| plain := plain d; objects := objects d; common := keep_common d; cached := Some m |})
  end.

(** _pick_from_boolist, dataset.py:178-184 *)
Definition pick_from_boolist (d : dataset) (l : list bool) : dataset :=
  {| plain := plain d; objects := compress (objects d) l; common := common d;
     cached := match cached d with Some m => Some (compress m l) | None => None end |}.
(** _pick_from_slice, dataset.py:163-170 *)
Definition pick_from_slice (d : dataset) (start stop step : option Z) : res dataset :=
  let* ps := slice_positions (length (objects d)) start stop step in
  let* rows := match cached d with
               | None => Ok None
               | Some m => let* ps' := slice_positions (length m) start stop step in Ok (Some (take m ps'))
               end in
  Ok {| plain := plain d; objects := take (objects d) ps; common := common d; cached := rows |}.
(** _indexlist_to_booleanlist, dataset.py:172-176 *)
Definition indexlist_to_booleanlist (d : dataset) (l : list Z) : res (list bool) :=
  foldM py_mark l (map (fun _ => false) (objects d)).

(** what [dataset[key]] returns: a python list, an object or a dataset *)
Inductive item := IEmpty | IObject (o : Obj) | IDataset (d : dataset).
(** __getitem__, dataset.py:99-125 *)
Definition getitem (d : dataset) (k : key) : res item :=
  match objects d with
  | [] => Ok IEmpty
  | _ =>
    match k with
    | KInt z => let* o := py_get (objects d) z in Ok (IObject o)
    | KSlice b e s => let* d' := pick_from_slice d b e s in Ok (IDataset d')
    | KBools [] | KInts [] => Ok (IDataset {| plain := plain d; objects := []; common := None; cached := None |})
    | KBools l => if Nat.eqb (length l) (length (objects d)) then Ok (IDataset (pick_from_boolist d l))
                  else Err ValueError
    | KInts l => let* bl := indexlist_to_booleanlist d l in Ok (IDataset (pick_from_boolist d bl))
    | KList | KOther => Err NotImplementedError
    end
  end.

(** __add__, dataset.py:127-140 *)
Definition add (d other : dataset) : res dataset :=
  if negb (plain d) || negb (plain other) then Err TypeError else
  let all := objects d ++ objects other in
  if forallb (fun a => memb String.eqb a (common_attributes d)) (common_attributes other)
  then Ok {| plain := true; objects := all; common := Some (common_attributes d);
             cached := match cached d, cached other with Some m, Some m' => Some (m ++ m') | _, _ => None end |}
  else Ok (make all).
(** extend, dataset.py:142-158: [self.__dict__.update((self + other).__dict__)] *)
Definition extend (d other : dataset) : res dataset := add d other.

(** column_values, dataset.py:352-368 *)
Definition column_values (d : dataset) (z : Z) : res (list V * dataset) :=
  let* (m, d') := matrix d in
  let* vs := mapM (fun row => py_get row z) m in
  Ok (vs, d').
(** attribute_values, dataset.py:330-350 *)
Definition attribute_values (d : dataset) (a : string) : res (list V * dataset) :=
  match objects d with
  | [] => Err IndexError
  | o :: _ =>
    match getattr o a with
    | None => match index_of String.eqb a (common_attributes d) with
              | None => Err ValueError
              | Some i => column_values d (Z.of_nat i)
              end
    | Some _ => let* vs := mapM (fun o => match getattr o a with Some v => Ok v | None => Err AttributeError end) (objects d) in
                Ok (vs, d)
    end
  end.

(** sub_matrix, dataset.py:372-390 *)
Fixpoint columns (d : dataset) (names : list string) : res (list (list V) * dataset) :=
  match names with
  | [] => Ok ([], d)
  | a :: names' => let* (c, d1) := attribute_values d a in
                   let* (cs, d2) := columns d1 names' in
                   Ok (c :: cs, d2)
  end.
Fixpoint zip_columns (n : nat) (cs : list (list V)) : list (list V) :=
  match n with
  | O => []
  | S n' => flat_map (fun c => firstn 1 c) cs :: zip_columns n' (map (@tl V) cs)
  end.
Definition zip_all (cs : list (list V)) : list (list V) :=
  match cs with
  | [] => []
  | c :: cs' => zip_columns (fold_right (fun c n => Nat.min (length c) n) (length c) cs') cs
  end.
Definition sub_matrix (d : dataset) (names : list string) : res (list (list V) * dataset) :=
  let* (cs, d') := columns d names in
  Ok (zip_all cs, d').
(** _check_costs, dataset.py:796-803 *)
Definition check_costs (len_data : nat) (costs : list (list V)) : res (list (list V)) :=
  if Nat.eqb (length costs) len_data then Ok costs
  else match costs with
       | [] => Err IndexError
       | row :: _ => if Nat.eqb (length row) len_data then Ok (zip_all costs) else Err ValueError
       end.
(** _compute_costs, dataset.py:861-863 *)
Definition compute_costs (d : dataset) (names : list string) : res (list (list V)) :=
  let* (costs, d') := sub_matrix d names in
  check_costs (length (objects d')) costs.

(** sort, dataset.py:392-438 *)
Inductive sort_key := SInt (z : Z) | SStr (a : string) | SOther.
Definition sort (d : dataset) (k : sort_key) (ascend : bool) : res dataset :=
  match objects d with
  | [] => Ok d
  | _ =>
    let* (vs, d') := match k with
                     | SInt z => column_values d z
                     | SStr a => attribute_values d a
                     | SOther => Err UnboundLocalError
                     end in
    let sort_indexes := argsort vs in
    let ps := if ascend then sort_indexes else rev sort_indexes in
    Ok {| plain := plain d'; objects := take (objects d') ps; common := common d';
          cached := match cached d' with Some m => Some (take m ps) | None => None end |}
  end.
End Dataset.
Arguments IEmpty {Obj V}.
Arguments IObject {Obj V} o.
Arguments IDataset {Obj V} d.

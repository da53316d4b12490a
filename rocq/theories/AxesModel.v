(** Model of the choice of the axes of a parallel plot
    (dessia_common/datatools/dataset.py). *)
From Coq Require Import Bool Arith QArith String List.
From Verif Require Import Base.
Import ListNotations.
Open Scope nat_scope.

(** Two attributes and their score, the key by which they are sorted. *)
Definition scored : Type := Q * list string.

(** Order of python lists of strings. *)
Fixpoint leb_strings (l m : list string) : bool :=
  match l, m with
  | [], _ => true
  | _ :: _, [] => false
  | s :: l', t :: m' => if String.eqb s t then leb_strings l' m' else String.leb s t
  end.
Definition leb_scored (x y : scored) : bool :=
  if Qeq_bool (fst x) (fst y) then leb_strings (snd x) (snd y) else Qle_bool (fst x) (fst y).
Fixpoint insert (x : scored) (l : list scored) : list scored :=
  match l with
  | [] => [x]
  | y :: l' => if leb_scored x y then x :: l else y :: insert x l'
  end.
Definition sorted (l : list scored) : list scored := fold_right insert [] l.

(** Sets, in the order of first appearance. *)
Definition uniq (l : list string) : list string := nodup string_dec l.

(** len(set(values)) == 1 *)
Definition constant (values : list Q) : bool :=
  match values with
  | [] => false
  | x :: r => forallb (Qeq_bool x) r
  end.

Section Axes.
(** The values of an attribute (Dataset.attribute_values), the square of the second value
    of npy.corrcoef, and the order in which a set is iterated over. *)
Variable values : string -> list Q.
Variable r2 : list Q -> list Q -> Q.
Variable order : list string -> list string.

(** The second loop of Dataset._get_correlations for one attribute, dataset.py:708-716:
    scored associations and constant attributes. *)
Definition associate (attr1 : string) (attrs : list string) : list scored * list string :=
  fold_left (fun acc attr2 =>
    if constant (values attr2) then (fst acc, snd acc ++ [attr2])
    else if negb (String.eqb attr1 attr2)
         then (fst acc ++ [(r2 (values attr1) (values attr2), [attr1; attr2])], snd acc)
         else acc) attrs ([], []).

(** The first loop, dataset.py:704-716. *)
Fixpoint associations (attrs : list string) : list scored * list string :=
  match attrs with
  | [] => ([], [])
  | attr1 :: rest =>
      if constant (values attr1)
      then let r := associations rest in (fst r, attr1 :: snd r)
      else let x := associate attr1 attrs in
           let r := associations rest in (fst x ++ fst r, snd x ++ snd r)
  end.

(** All pairs with scores 1, 9/10, 8/10..., dataset.py:721-726. *)
Fixpoint unreal (attrs : list string) (score : Q) : list scored :=
  match attrs with
  | [] => []
  | attr1 :: rest =>
      map (fun kv => ((score - inject_Z (Z.of_nat (fst kv)) / 10)%Q, [attr1; snd kv]))
          (combine (seq 0 (List.length rest)) rest)
      ++ unreal rest (score - inject_Z (Z.of_nat (List.length rest)) / 10)
  end.

(** Dataset._get_correlations, dataset.py:700-730.  Scores are not used later. *)
Definition get_correlations (attrs : list string) : res (list (list string) * list string) :=
  let r := associations attrs in
  match fst r with
  | [] => match rev (sorted (unreal attrs 1)) with
          | [] => Err ValueError            (* not enough values to unpack *)
          | l => Ok (map snd l, [])
          end
  | _ => Ok (map snd (rev (sorted (fst r))), order (uniq (snd r)))
  end.

(** The first association with an attribute in [first], taken out of the list:
    dataset.py:743-748. *)
Fixpoint pull (first : list string) (l : list (list string)) : option (list string * list (list string)) :=
  match l with
  | [] => None
  | a :: l' => if existsb (fun i => memb String.eqb i first) a then Some (a, l')
               else option_map (fun r => (fst r, a :: snd r)) (pull first l')
  end.

(** Dataset._get_attribute_trios, dataset.py:732-749. *)
Fixpoint trios (fuel : nat) (picked all : list string) (l : list (list string)) : res (list (list string)) :=
  match fuel with
  | 0 => Err OutOfFuel
  | S fuel' =>
      if Nat.eqb (List.length (uniq picked)) (List.length (uniq all)) then Ok []
      else match l with
           | [] => Err IndexError
           | first :: l' =>
               match pull first l' with
               | None => let* r := trios fuel' (picked ++ first) all l' in Ok (first :: r)
               | Some (a, l'') => let* r := trios fuel' (picked ++ first ++ a) all l'' in Ok ((first ++ a) :: r)
               end
           end
  end.
Definition get_attribute_trios (l : list (list string)) : res (list (list string)) :=
  trios (S (List.length l)) [] (List.concat l) l.

Definition count (s : string) (l : list string) : nat := count_occ string_dec l s.

(** The exception of next() on an iterator that is exhausted (StopIteration). *)
Definition stop_iteration : exn := EvalError 1.

(** Dataset._new_attributes_trio, dataset.py:760-767. *)
Definition new_attributes_trio (serie : list string) : res (list string) :=
  if List.length serie <? 3 then Ok serie
  else
    let* i := of_option ValueError (index_of Nat.eqb 2 (map (fun a => count a serie) serie)) in
    let* mid := of_option IndexError (nth_error serie i) in
    match order (uniq (filter (fun a => negb (String.eqb a mid)) serie)) with
    | a :: b :: _ => Ok [a; mid; b]
    | _ => Err stop_iteration
    end.

(** The loop over the instances of the attribute at one end, dataset.py:774-782. *)
Fixpoint instances (front : bool) (e : string) (serie : list string) (is : list nat) (ordered : list string)
  : res (list string) :=
  match is with
  | [] => Ok ordered
  | i :: is' =>
      let* j := of_option ValueError (index_of String.eqb e (skipn (i * 2) serie)) in
      let idx_in_serie := i * 2 + j in
      let idx_attr_to_add := idx_in_serie + 1 - 2 * (idx_in_serie mod 2) in
      let* a := of_option IndexError (nth_error serie idx_attr_to_add) in
      if memb String.eqb a ordered then instances front e serie is' ordered
      else Ok (if front then a :: ordered else ordered ++ [a])
  end.

(** One of the two ends, dataset.py:771-782: the first (index 0) or the last (index -1). *)
Definition one_side (front : bool) (ordered serie : list string) : res (list string) :=
  let* e := of_option IndexError (if front then hd_error ordered else hd_error (rev ordered)) in
  if memb String.eqb e serie
  then instances front e serie (seq 0 (count e serie)) ordered
  else Ok ordered.

(** Dataset._new_sided_attribute, dataset.py:769-783. *)
Definition new_sided_attribute (ordered serie : list string) : res (list string) :=
  let* ordered := one_side true ordered serie in
  one_side false ordered serie.

(** Dataset._trios_list_to_parallel_axes, dataset.py:751-758. *)
Definition trios_list_to_parallel_axes (series : list (list string)) : res (list string) :=
  foldM (fun ordered serie =>
    if existsb (fun i => memb String.eqb i serie) ordered
    then new_sided_attribute ordered serie
    else let* t := new_attributes_trio serie in Ok (ordered ++ t)) series [].

(** Dataset._parallel_plot_attr, dataset.py:694-698. *)
Definition parallel_plot_attr (attrs : list string) : res (list string) :=
  let* c := get_correlations attrs in
  let* series := get_attribute_trios (fst c) in
  let* axes := trios_list_to_parallel_axes series in
  Ok (snd c ++ axes).

(** What Dataset.plot_parallel_plot draws, dataset.py:636-645. *)
Inductive plot := Parallel (axes : list string) | Single (attr : string).
Definition plot_parallel_plot (attrs : list string) : res plot :=
  if 1 <? List.length attrs then let* axes := parallel_plot_attr attrs in Ok (Parallel axes)
  else match attrs with
       | [a] => Ok (Single a)
       | _ => Err ValueError
       end.
End Axes.

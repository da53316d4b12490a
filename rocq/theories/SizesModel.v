(** Model of the memory footprint of objects (/repo/dessia_common/breakdown.py:125-178). *)
From Coq Require Import List String Bool Arith ZArith QArith.
From Verif Require Import Base.
Import ListNotations.
Local Open Scope nat_scope.
Local Open Scope list_scope.

(** Objects are addresses in a heap.  [Map] is a Mapping with its keys and values, [Cont] another Container with the
    values of its __dict__ when it has one (a list, a tuple, a set, bytes and a range have none), [Plain] any other, with the values of its __dict__. *)
Inductive kind := Str | Map (items : list (nat * nat)) | Cont (attributes : option (list nat)) | Plain (attributes : list nat).
(** sys.getsizeof gives the size. *)
Record obj := Obj { size : nat; knd : kind }.
Definition heap := list obj.

(** sum over a generator, the set of ids is shared. *)
Fixpoint sum_visits (visit : list nat -> nat -> res (nat * list nat)) (ids : list nat) (l : list nat) : res (nat * list nat) :=
  match l with
  | [] => Ok (0, ids)
  | x :: l =>
    let* r := visit ids x in
    let* s := sum_visits visit (snd r) l in
    Ok (fst r + fst s, snd s)
  end.
Definition flat_items (items : list (nat * nat)) : list nat := flat_map (fun kv => [fst kv; snd kv]) items.
(** deep_getsizeof, 125-157; an address outside the heap is no object. *)
Fixpoint deep_getsizeof (fuel : nat) (h : heap) (ids : list nat) (x : nat) : res (nat * list nat) :=
  match fuel with
  | 0 => Err OutOfFuel
  | S fuel =>
    if memb Nat.eqb x ids then Ok (0, ids) else
    match nth_error h x with
    | None => Err NameError
    | Some o =>
      let ids := x :: ids in
      match knd o with
      | Str => Ok (size o, ids)
      | Map items =>
        let* s := sum_visits (deep_getsizeof fuel h) ids (flat_items items) in
        Ok (size o + fst s, snd s)
      | Cont (Some values) =>
        let* s := sum_visits (deep_getsizeof fuel h) ids values in
        Ok (size o + fst s, snd s)
      | Cont None => Err AttributeError
      | Plain _ => Ok (size o, ids)
      end
    end
  end.
Definition sizeof (h : heap) (x : nat) : res nat :=
  let* r := deep_getsizeof (S (List.length h)) h [] x in Ok (fst r).

(** breakdown_analysis, 160-178; the breakdown gives for each class a dictionary of objects to paths. *)
Record stats := Stats {
  total_size : nat; numbers : list (string * nat); sizes : list (string * nat); meansizes : list (string * Q) }.
Definition class_stats (h : heap) (c : string * nat) : res (string * (nat * (nat * Q))) :=
  match nth_error h (snd c) with
  | Some (Obj _ (Map items)) =>
    let nobjs := List.length items in
    let* s := sizeof h (snd c) in
    if nobjs =? 0 then Err ZeroDivisionError else
    Ok (fst c, (nobjs, (s, Qmake (Z.of_nat s) (Pos.of_nat nobjs))))
  | _ => Err TypeError
  end.
Definition breakdown_analysis (h : heap) (obj_breakdown : list (string * nat)) (x : nat) : res stats :=
  let* total := sizeof h x in
  let* cs := mapM (class_stats h) obj_breakdown in
  Ok (Stats total (map (fun c => (fst c, fst (snd c))) cs) (map (fun c => (fst c, fst (snd (snd c)))) cs)
        (map (fun c => (fst c, snd (snd (snd c)))) cs)).

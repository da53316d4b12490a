(** Model of the generators of models from decision trees (/repo/dessia_common/generation.py).

    The trees are those of the package dectree, which is not part of the repository: a tree goes down to its first
    child after a viable node that has possibilities, and otherwise to the next brother of the deepest node that has one.
    Generators that go through sorted or unique nodes are left out.  [yield] is the adding of a model to a list. *)
From Coq Require Import List Bool Arith.
From Verif Require Import Base.
Import ListNotations.

(** The current node, the numbers of possibilities that were given by depth, and whether all nodes were seen. *)
Record tree := Tree { node : list nat; nps : list nat; finished : bool }.

Fixpoint replace_nth (k x : nat) (l : list nat) : list nat :=
  match l, k with
  | [], _ => []
  | _ :: l, 0 => x :: l
  | y :: l, S k => y :: replace_nth k x l
  end.
(** SetCurrentNodeNumberPossibilities *)
Definition set_possibilities (n : nat) (t : tree) : tree :=
  let depth := List.length (node t) in
  Tree (node t) (if depth <? List.length (nps t) then replace_nth depth n (nps t) else nps t ++ [n]) (finished t).
(** The next brother of the deepest node that has one, from a reversed vector. *)
Fixpoint up (nps : list nat) (r : list nat) : option (list nat) :=
  match r with
  | [] => None
  | d :: r => if S d <? nth (List.length r) nps 0 then Some (rev (S d :: r)) else up nps r
  end.
Definition go_up (t : tree) : tree :=
  match up (nps t) (rev (node t)) with
  | Some v => Tree v (nps t) (finished t)
  | None => Tree (node t) (nps t) true
  end.
(** DecisionTree.NextNode *)
Definition next_node (viable : bool) (t : tree) : tree :=
  if viable && negb (nth (List.length (node t)) (nps t) 0 =? 0) then Tree (node t ++ [0]) (nps t) (finished t) else go_up t.
(** RegularDecisionTree.NextNode: the depth of a first node is 0. *)
Definition next_regular_node (viable : bool) (t : tree) : tree :=
  if viable && (List.length (node t) <? List.length (nps t)) then Tree (node t ++ [0]) (nps t) (finished t) else go_up t.

Section Generators.
Context {M : Type}.
Variable model_from_vector : list nat -> res M.
Variable is_vector_valid : list nat -> bool.
Variable is_model_valid : M -> bool.
Variable number_possibilities_from_model : M -> nat.

(** One turn of the loop of DecisionTreeGenerator.generate, generation.py:110-129 *)
Definition turn (t : tree) : res (list M * tree) :=
  if is_vector_valid (node t) then
    let* model := model_from_vector (node t) in
    if is_model_valid model then
      let number_possibilities := number_possibilities_from_model model in
      let t := set_possibilities number_possibilities t in
      Ok (if number_possibilities =? 0 then [model] else [], next_node true t)
    else Ok ([], next_node false t)
  else Ok ([], next_node false t).
Fixpoint loop (turn : tree -> res (list M * tree)) (fuel : nat) (t : tree) : res (list M * tree) :=
  match fuel with
  | 0 => Err OutOfFuel
  | S fuel =>
    if finished t then Ok ([], t) else
    let* r := turn t in
    let* s := loop turn fuel (snd r) in
    Ok (fst r ++ fst s, snd s)
  end.
(** DecisionTreeGenerator.generate, 100-129: the list of models and the tree it leaves. *)
Definition generate (fuel : nat) (t : tree) : res (list M * tree) :=
  let* model := model_from_vector (node t) in
  loop turn fuel (set_possibilities (number_possibilities_from_model model) t).
(** dt.DecisionTree(), 96-98 *)
Definition new_tree : tree := Tree [] [] false.

(** RegularDecisionTreeGenerator, 164-202; leaves_depth is the number of possibilities minus one. *)
Definition regular_turn (leaves_depth : nat) (t : tree) : res (list M * tree) :=
  if is_vector_valid (node t) then
    let* model := model_from_vector (node t) in
    let valid := is_model_valid model in
    Ok (if valid && (List.length (node t) =? S leaves_depth) then [model] else [], next_regular_node valid t)
  else Ok ([], next_regular_node false t).
Definition regular_tree (number_possibilities : list nat) : tree := Tree [0] number_possibilities false.
Definition regular_generate (number_possibilities : list nat) (fuel : nat) (t : tree) : res (list M * tree) :=
  loop (regular_turn (List.length number_possibilities - 1)) fuel t.
End Generators.

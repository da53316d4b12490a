(** C35: the factor grids of a number.

    [root n] is [int(n ** 0.5)] and [as_list] is the order in which a set of integers
    is listed: both are parameters.  A square root that is not below the integer
    square root is all that is asked (an overshoot is harmless), and a set that lists
    each of its elements once. *)
From Coq Require Import ZArith Lia Permutation List.
From Verif Require Import Base BaseProofs AlgebraModel AlgebraProofs.
Import ListNotations.
Open Scope Z_scope.

Section C35.
Variable root : Z -> Z.
Variable as_list : list Z -> list Z.
Hypothesis root_ok : forall n, 0 < n -> Z.sqrt n <= root n.
Hypothesis as_list_ok : forall l, NoDup (as_list l) /\ forall x, In x (as_list l) <-> In x l.

(** Two factors: exactly the pairs of positive integers with that product, each once. *)
Theorem C35_two_factors number : 0 < number < 2 ^ 53 ->
  exists grids, number2factor root as_list number = Ok grids
  /\ NoDup grids
  /\ forall x y, In (x, y) grids <-> 0 < x /\ 0 < y /\ x * y = number.
Proof. apply (number2_spec root as_list root_ok as_list_ok). Qed.

(** Three factors, complete: exactly the triples, each once. *)
Theorem C35_three_factors number : 0 < number < 2 ^ 53 ->
  exists grids, number3factor root as_list number true = Ok grids
  /\ NoDup grids
  /\ forall x y z, In (x, y, z) grids <-> 0 < x /\ 0 < y /\ 0 < z /\ x * y * z = number.
Proof. apply (number3_complete root as_list root_ok as_list_ok). Qed.

(** Three factors, not complete: every triple is there up to the order of its
    numbers, and no two grids are the same up to order.  (The code compares the
    triples as sets: that two triples with the same set and the same product are
    permutations of each other is what makes it right.) *)
Theorem C35_up_to_order number : 0 < number < 2 ^ 53 ->
  exists grids, number3factor root as_list number false = Ok grids
  /\ (forall x y z, In (x, y, z) grids -> 0 < x /\ 0 < y /\ 0 < z /\ x * y * z = number)
  /\ (forall x y z, 0 < x -> 0 < y -> 0 < z -> x * y * z = number ->
        exists x' y' z', In (x', y', z') grids /\ Permutation [x; y; z] [x'; y'; z'])
  /\ ForallOrdPairs (fun t t' => let '(x, y, z) := t in let '(x', y', z') := t' in
                       ~ Permutation [x; y; z] [x'; y'; z']) grids.
Proof. apply (number3_incomplete root as_list root_ok as_list_ok). Qed.

(** The remaining numbers *)
Theorem C35_not_positive number : number <= 0 ->
  let outcome {A} := if number =? 0 then Ok (@nil A) else Err TypeError in
  number2factor root as_list number = outcome
  /\ forall complete, number3factor root as_list number complete = outcome.
Proof.
  intros H. unfold number2factor, number3factor. simpl.
  destruct (Z.ltb_spec number 0), (Z.eqb_spec number 0); try lia; auto.
Qed.

(** From 2^53 on quotients are rounded, and some grids have another product: those of
    2^53 + 1 include 1 x 2^53 and 1 x 1 x 2^53. *)
Theorem C35_large_refuted : exists number x y, 0 < number
  /\ (exists grids, number2factor root as_list number = Ok grids /\ In (x, y) grids)
  /\ (exists grids, number3factor root as_list number true = Ok grids /\ In (1, x, y) grids)
  /\ x * y <> number.
Proof.
  exists (2 ^ 53 + 1), 1, (2 ^ 53). split; [lia|].
  assert (F : In 1 (factors root as_list (2 ^ 53 + 1))).
  { apply (factors_spec root as_list root_ok as_list_ok); [lia|]. split; [lia|].
    exists (2 ^ 53 + 1). lia. }
  split; [|split; [|lia]].
  - eexists. split; [reflexivity|]. apply in_flat_map. exists 1. split; auto.
    vm_compute. auto.
  - eexists. split; [reflexivity|]. apply in_flat_map. exists (1, 1). split.
    + apply in_prod; auto.
    + vm_compute. auto.
Qed.
End C35.

Print Assumptions C35_two_factors.
Print Assumptions C35_three_factors.
Print Assumptions C35_up_to_order.
Print Assumptions C35_not_positive.
Print Assumptions C35_large_refuted.

(** The hypotheses are met by the exact integer square root and by listing in order
    of appearance. *)
Lemma C35_root_example : forall n, 0 < n -> Z.sqrt n <= Z.sqrt n.
Proof. lia. Qed.

Lemma C35_as_list_example : forall l, NoDup (nodup Z.eq_dec l) /\ forall x, In x (nodup Z.eq_dec l) <-> In x l.
Proof. intros l. split; [apply NoDup_nodup|]. intros x. apply nodup_In. Qed.

Example C35_two_factors_example :
  number2factor Z.sqrt (nodup Z.eq_dec) 12 = Ok [(1, 12); (12, 1); (2, 6); (6, 2); (3, 4); (4, 3)].
Proof. vm_compute. reflexivity. Qed.

Example C35_three_factors_example :
  number3factor Z.sqrt (nodup Z.eq_dec) 4 true
  = Ok [(1, 1, 4); (1, 4, 1); (1, 2, 2); (4, 1, 1); (2, 1, 2); (2, 2, 1)].
Proof. vm_compute. reflexivity. Qed.

Example C35_up_to_order_example :
  number3factor Z.sqrt (nodup Z.eq_dec) 12 false = Ok [(1, 1, 12); (1, 2, 6); (1, 3, 4); (2, 2, 3)].
Proof. vm_compute. reflexivity. Qed.

Example C35_not_positive_example :
  number2factor Z.sqrt (nodup Z.eq_dec) (-4) = Err TypeError /\ number2factor Z.sqrt (nodup Z.eq_dec) 0 = Ok [].
Proof. vm_compute. auto. Qed.

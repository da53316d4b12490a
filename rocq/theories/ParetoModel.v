(** Model of Pareto fronts (dessia_common/datatools/dataset.py:796-820 and 861-902). *)
From Coq Require Import ZArith QArith Bool SpecFloat List.
From Verif Require Import Base.
Import ListNotations.
Open Scope nat_scope.

Section Pairs.
Context {A B C : Type}.
Variable f : A -> B -> C.
Fixpoint map2 (l : list A) (m : list B) : list C :=
  match l, m with x :: l', y :: m' => f x y :: map2 l' m' | _, _ => [] end.
End Pairs.

Section Pareto.
(** The numbers of numpy: exact or floating point *)
Variable T : Type.
Variable zero : T.
Variable sub div : T -> T -> T.
Variable lt : T -> T -> bool.
(** numpy's mean and std of a column *)
Variable mean std : list T -> T.

(** a column of a matrix *)
Definition column (costs : list (list T)) (k : nat) : list T := map (fun row => nth k row zero) costs.
(** [(costs - npy.mean(costs, axis=0)) / npy.std(costs, axis=0)] *)
Definition standardise (costs : list (list T)) : list (list T) :=
  map (fun row => map2 (fun k x => div (sub x (mean (column costs k))) (std (column costs k))) (seq 0 (length row)) row) costs.

(** [npy.any(row < cost)] *)
Definition any_less (row cost : list T) : bool := existsb (fun b => b) (map2 lt row cost).
(** [mask[index] = True] *)
Fixpoint set_true (i : nat) (mask : list bool) : list bool :=
  match mask with
  | [] => []
  | b :: mask' => match i with O => true :: mask' | S i' => b :: set_true i' mask' end
  end.

(** One iteration of the loop of pareto_indexes, dataset.py:814-819 *)
Definition keep_better (rows : list (list T)) (mask : list bool) (index : nat) : list bool :=
  if nth index mask false then
    let cost := nth index rows [] in
    set_true index (map2 (fun b row => b && any_less row cost) mask rows)
  else mask.

(** pareto_indexes, dataset.py:805-820 *)
Definition pareto_indexes (costs : list (list T)) : list bool :=
  let costs_array := standardise costs in
  fold_left (keep_better costs_array) (seq 0 (length costs)) (map (fun _ => true) costs).

(** pareto_points, dataset.py:865-877, on the objects and their costs (already one row per
    object) *)
Definition pareto_points {A} (objects : list A) (costs : list (list T)) : list A :=
  compress objects (pareto_indexes costs).

(** pareto_sheets, dataset.py:879-902: the sheets and what is left *)
Fixpoint pareto_sheets {A} (nb_sheets : nat) (points : list A) (costs : list (list T)) : list (list A) * list A :=
  match nb_sheets with
  | O => ([], points)
  | S n =>
    let sheet := pareto_indexes costs in
    let not_sheet := map negb sheet in
    let (sheets, left) := pareto_sheets n (compress points not_sheet) (compress costs not_sheet) in
    (compress points sheet :: sheets, left)
  end.

(** _check_costs, dataset.py:796-803: one row per object, the transposed matrix otherwise *)
Fixpoint transpose (width : nat) (rows : list (list T)) : list (list T) :=
  match width with
  | O => []
  | S w => map (fun row => hd zero row) rows :: transpose w (map (fun row => tl row) rows)
  end.
Definition check_costs (len_data : nat) (costs : list (list T)) : res (list (list T)) :=
  if Nat.eqb (length costs) len_data then Ok costs
  else match costs with
       | [] => Err IndexError
       | row :: _ => if Nat.eqb (length row) len_data
                     then Ok (transpose (fold_right (fun r n => Nat.min (length r) n) (length row) costs) costs)
                     else Err ValueError
       end.
End Pareto.

(** ** Exact numbers

    Cells are rational numbers or NaN. *)
Definition cell := option Q.
Definition cell_lt (a b : cell) : bool :=
  match a, b with Some x, Some y => negb (Qle_bool y x) | _, _ => false end.
Definition cell_sub (a b : cell) : cell :=
  match a, b with Some x, Some y => Some (x - y)%Q | _, _ => None end.
(** Dividing by zero: only 0/0 occurs, as the deviation is null in constant columns only *)
Definition cell_div (a b : cell) : cell :=
  match a, b with Some x, Some y => if Qeq_bool y 0 then None else Some (x / y)%Q | _, _ => None end.
(** the mean and the standard deviation of numbers, the latter being an irrational number in
    general, any function *)
Definition sum_cells (l : list cell) : cell :=
  fold_left (fun a b => match a, b with Some x, Some y => Some (x + y)%Q | _, _ => None end) l (Some 0%Q).
Definition mean_cells (l : list cell) : cell := cell_div (sum_cells l) (Some (inject_Z (Z.of_nat (length l)))).

(** exact costs *)
Definition cells : list (list Q) -> list (list cell) := map (map Some).
Definition exact_indexes (std : list cell -> cell) (costs : list (list Q)) : list bool :=
  pareto_indexes cell None cell_sub cell_div cell_lt mean_cells std (cells costs).
Definition exact_points {A} (std : list cell -> cell) (objects : list A) (costs : list (list Q)) : list A :=
  pareto_points cell None cell_sub cell_div cell_lt mean_cells std objects (cells costs).
Definition exact_sheets {A} (std : list cell -> cell) (nb_sheets : nat) (objects : list A) (costs : list (list Q)) : list (list A) * list A :=
  pareto_sheets cell None cell_sub cell_div cell_lt mean_cells std nb_sheets objects (cells costs).
(** the same without the standardisation of the costs *)
Definition raw_indexes (costs : list (list Q)) : list bool :=
  pareto_indexes cell None (fun x _ => x) (fun x _ => x) cell_lt (fun _ => None) (fun _ => None) (cells costs).

(** ** Floating point numbers (binary64)

    numpy reduces along the first axis row after row. *)
Definition f64_sub := SFsub 53 1024.
Definition f64_div := SFdiv 53 1024.
Definition f64_of_Z (n : Z) : spec_float := binary_normalize 53 1024 n 0 false.
Definition f64_sum (l : list spec_float) : spec_float := fold_left (SFadd 53 1024) l (S754_zero false).
Definition f64_mean (l : list spec_float) : spec_float := f64_div (f64_sum l) (f64_of_Z (Z.of_nat (length l))).
Definition f64_std (l : list spec_float) : spec_float :=
  let m := f64_mean l in
  let squares := map (fun x => let d := f64_sub x m in SFmul 53 1024 d d) l in
  SFsqrt 53 1024 (f64_mean squares).
Definition f64_pareto_indexes (costs : list (list spec_float)) : list bool :=
  pareto_indexes _ (S754_zero false) f64_sub f64_div SFltb f64_mean f64_std costs.

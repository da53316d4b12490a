(** Model of the borders of Pareto domains (dessia_common/datatools/dataset.py:822-859).  Costs are exact numbers. *)
From Coq Require Import ZArith QArith Qabs Bool List.
From Verif Require Import Base ParetoModel.
Import ListNotations.
Open Scope nat_scope.

(** a column of an array *)
Definition values (k : nat) (rows : list (list Q)) : list Q := map (fun row => nth k row 0%Q) rows.

(** [npy.argmin], the first one of the least; a ValueError on nothing *)
Fixpoint argmin_loop (l : list Q) (i : nat) (best : Q) (index : nat) : nat :=
  match l with
  | [] => index
  | x :: l => if negb (Qle_bool best x) then argmin_loop l (S i) x i else argmin_loop l (S i) best index
  end.
Definition argmin (l : list Q) : res nat :=
  match l with [] => Err ValueError | x :: l => Ok (argmin_loop l 1 x 0) end.
(** [npy.min] and [npy.max]; a ValueError on nothing *)
Definition minimum (l : list Q) : res Q :=
  match l with [] => Err ValueError | x :: l => Ok (fold_left (fun a b => if Qle_bool a b then a else b) l x) end.
Definition maximum (l : list Q) : res Q :=
  match l with [] => Err ValueError | x :: l => Ok (fold_left (fun a b => if Qle_bool a b then b else a) l x) end.

(** two points, each with the value of the first cost before that of the second *)
Definition frontier := ((Q * Q) * (Q * Q))%type.

(** _pareto_frontier_2d, dataset.py:840-859.  The assignment of line 851 changes nothing, as the rows it is for
    are left out at line 848, but what it assigns is computed. *)
Definition pareto_frontier_2d (x_dim y_dim : nat) (pareto_costs : list (list Q)) (max_x_dim : Q) (super_mini : list Q)
  : res frontier :=
  let* minidx := argmin (values y_dim pareto_costs) in
  let x_coord := nth x_dim (nth minidx pareto_costs []) 0%Q in
  let y_coord := nth y_dim (nth minidx pareto_costs []) 0%Q in
  let new_pareto := filter (fun row => negb (Qeq_bool (x_coord - nth x_dim row 0) 0)%Q) pareto_costs in
  let dir_coeffs := map (fun row => (y_coord - nth y_dim row 0) / (x_coord - nth x_dim row 0))%Q new_pareto in
  let* _ := maximum dir_coeffs in
  let offsets := map (fun d => y_coord - d * x_coord)%Q dir_coeffs in
  let approx_super_mini := map2 (fun d o => d * nth x_dim super_mini 0 + o)%Q dir_coeffs offsets in
  let* chosen_line := argmin (map (fun a => Qabs (a - nth y_dim super_mini 0)%Q) approx_super_mini) in
  Ok ((nth x_dim super_mini 0%Q, nth chosen_line approx_super_mini 0%Q),
      (max_x_dim, (max_x_dim * nth chosen_line dir_coeffs 0 + nth chosen_line offsets 0)%Q)).

(** pareto_frontiers, dataset.py:822-838.  Rows have the same length. *)
Definition pareto_frontiers (std : list cell -> cell) (len_data : nat) (costs : list (list Q)) : res (list frontier) :=
  let* checked_costs := check_costs Q 0%Q len_data costs in
  let pareto_costs := compress checked_costs (exact_indexes std checked_costs) in
  let dims := match checked_costs with row :: _ => length row | [] => 0 end in
  let* super_mini := match checked_costs with
                     | [] => Err ValueError
                     | _ => mapM (fun k => minimum (values k checked_costs)) (seq 0 dims)
                     end in
  mapM (fun xy => let* max_x_dim := maximum (values (fst xy) checked_costs) in
                  pareto_frontier_2d (fst xy) (snd xy) pareto_costs max_x_dim super_mini)
       (flat_map (fun x => flat_map (fun y => if x =? y then [] else [(x, y)]) (seq 0 dims)) (seq 0 dims)).

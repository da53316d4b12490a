(** Model of the distances and moments of /repo/dessia_common/datatools/metrics.py.

    Simplification: numbers are rationals, so that rounding is left out.  The
    functions that call numpy or scipy (lp_norm, minkowski_distance, variance,
    covariance_matrix, std, mahalanobis_distance) are not modelled.  The square
    root of [l2_norm] (line 48) is not taken: [sq_norm] is what is under it. *)
From Coq Require Import QArith Qabs Qminmax List.
From Verif Require Import Base.
Import ListNotations.
Open Scope Q_scope.

(** python [sum] *)
Definition py_sum (l : list Q) : Q := fold_left Qplus l 0.

(** [diff_list], metrics.py:7-20 *)
Definition diff_list (list_a list_b : list Q) : list Q :=
  map (fun ab => fst ab - snd ab) (combine list_a list_b).

(** [l1_norm], metrics.py:23-33 *)
Definition l1_norm (vector : list Q) : Q := py_sum (map Qabs vector).

(** what [l2_norm] takes the square root of, metrics.py:36-47 *)
Definition sq_norm (vector : list Q) : Q := py_sum (map (fun x => x * x) vector).

(** [inf_norm], metrics.py:66-76; [max] of nothing raises ValueError *)
Definition inf_norm (vector : list Q) : res Q :=
  match vector with
  | [] => Err ValueError
  | x :: l => Ok (fold_left (fun m c => if Qlt_le_dec m (Qabs c) then Qabs c else m) l (Qabs x))
  end.

(** [manhattan_distance], metrics.py:79-93 *)
Definition manhattan_distance (list_a list_b : list Q) : Q := l1_norm (diff_list list_a list_b).

(** the square of [euclidian_distance], metrics.py:96-112 *)
Definition sq_euclidian_distance (list_a list_b : list Q) : Q := sq_norm (diff_list list_a list_b).

Definition py_div (a b : Q) : res Q :=
  if Qeq_bool b 0 then Err ZeroDivisionError else Ok (a / b).

Definition len (l : list Q) : Q := inject_Z (Z.of_nat (length l)).

(** [mean], metrics.py:135-145 *)
Definition mean (vector : list Q) : res Q := py_div (py_sum vector) (len vector).

(** [covariance], metrics.py:162-180 *)
Definition covariance (vector_x vector_y : list Q) : res Q :=
  if negb (Nat.eqb (length vector_x) (length vector_y)) then Err ValueError
  else
    let* mean_x := mean vector_x in
    let* mean_y := mean vector_y in
    py_div (py_sum (map (fun xy => (fst xy - mean_x) * (snd xy - mean_y)) (combine vector_x vector_y)))
           (len vector_x).

(** Model of /repo/dessia_common/utils/interpolation.py.

    Simplification: numbers are rationals, so that rounding is left out. *)
From Coq Require Import ZArith QArith Qabs Qround List.
From Verif Require Import Base.
Import ListNotations.
Open Scope Q_scope.

Definition Qlt_bool (a b : Q) : bool := negb (Qle_bool b a).

(** [sorted((point1, point2))] *)
Definition sorted2 (point1 point2 : Q) : Q * Q :=
  if Qlt_bool point2 point1 then (point2, point1) else (point1, point2).

Definition py_div (a b : Q) : res Q :=
  if Qeq_bool b 0 then Err ZeroDivisionError else Ok (a / b).

(** the loop, interpolation.py:11-17; [None] when it ends without returning *)
Fixpoint istep_loop (ipoint : nat) (pairs : list (Q * Q)) (value : Q) : option (res Q) :=
  match pairs with
  | [] => None
  | (point1, point2) :: pairs' =>
      let (point1_s, point2_s) := sorted2 point1 point2 in
      if Qle_bool point1_s value && Qle_bool value point2_s then
        Some (let* alpha := py_div (value - point1_s) (point2_s - point1_s) in
              if Qlt_bool alpha 0 || Qlt_bool 1 alpha then Err ValueError
              else Ok (inject_Z (Z.of_nat ipoint) + alpha))
      else istep_loop (S ipoint) pairs' value
  end.

(** [istep_from_value_on_list], interpolation.py:7-29; [min] and [max] of an empty list
    raise ValueError as the last line does *)
Definition istep_from_value_on_list (list_ : list Q) (value : Q) (extrapolate : bool) : res Q :=
  match istep_loop 0 (combine (removelast list_) (tl list_)) value with
  | Some r => r
  | None =>
      if extrapolate then
        match list_ with
        | [] => Err IndexError
        | first :: _ =>
            if Qlt_bool (Qabs (first - value)) (Qabs (last list_ 0 - value)) then Ok 0
            else Ok (inject_Z (Z.of_nat (length list_) - 1))
        end
      else Err ValueError
  end.

Section Objects.
Context {obj : Type}.
Variable scale : Q -> obj -> obj.        (* number * object *)
Variable add : obj -> obj -> obj.        (* object + object *)

(** [interpolate_from_istep], interpolation.py:32-45 *)
Definition interpolate_from_istep (objects : list obj) (istep : Q) : res obj :=
  let n_objects := Z.of_nat (length objects) in
  if Qlt_bool istep 0 || Qlt_bool (inject_Z (n_objects - 1)) istep then Err ValueError
  else
    let istep1 := Qfloor istep in
    if Qeq_bool (inject_Z istep1) istep then of_option IndexError (nth_error objects (Z.to_nat istep1))
    else
      let alpha := istep - inject_Z istep1 in
      let* point1 := of_option IndexError (nth_error objects (Z.to_nat istep1)) in
      let* point2 := of_option IndexError (nth_error objects (Z.to_nat (istep1 + 1))) in
      Ok (add (scale (1 - alpha) point1) (scale alpha point2)).
End Objects.

(** Model of the parameters of /repo/dessia_common/core.py and of the dimensionless
    variables of /repo/dessia_common/optimization.py.

    Simplification: numbers are rationals, so that rounding is left out.  The two
    solvers (scipy.optimize.minimize, cma.fmin), the class instantiated and its cost
    are parameters. *)
From Coq Require Import ZArith QArith Qabs Qround String List Bool.
From Verif Require Import Base.
Import ListNotations.
Open Scope Q_scope.

Definition py_div (a b : Q) : res Q :=
  if Qeq_bool b 0 then Err ZeroDivisionError else Ok (a / b).

(** python [a % b] *)
Definition py_mod (a b : Q) : res Q :=
  if Qeq_bool b 0 then Err ZeroDivisionError else Ok (a - b * inject_Z (Qfloor (a / b))).

(** [math.isclose] with its default relative tolerance *)
Definition isclose (a b abs_tol : Q) : res bool :=
  if negb (Qle_bool 0 abs_tol) then Err ValueError
  else if Qeq_bool a b then Ok true
  else
    let diff := Qabs (b - a) in
    Ok (Qle_bool diff (Qabs ((1 # 1000000000) * b)) || Qle_bool diff (Qabs ((1 # 1000000000) * a))
        || Qle_bool diff abs_tol).

(** [Parameter], core.py:762-769 *)
Record parameter := { lower_bound : Q; upper_bound : Q; periodicity : option Q }.

(** [are_values_equal], core.py:775-781; [tol] is 0.01 by default *)
Definition are_values_equal (self : parameter) (value1 value2 tol : Q) : res bool :=
  match periodicity self with
  | Some p =>
      let* value1 := py_mod value1 p in
      let* value2 := py_mod value2 p in
      isclose value1 value2 tol
  | None => isclose value1 value2 tol
  end.

(** [normalize], core.py:783-786 *)
Definition normalize (self : parameter) (value : Q) : res Q :=
  py_div (value - lower_bound self) (upper_bound self - lower_bound self).

(** [original_value], core.py:788-791 *)
Definition original_value (self : parameter) (normalized_value : Q) : Q :=
  normalized_value * (upper_bound self - lower_bound self) + lower_bound self.

(** [optimizer_bounds], core.py:793-797 *)
Definition optimizer_bounds (self : parameter) : option (Q * Q) :=
  match periodicity self with
  | Some p => Some (lower_bound self - (1 # 2) * p, upper_bound self + (1 # 2) * p)
  | None => None
  end.

(** python [min] and [max] *)
Definition py_min (l : list Q) : res Q :=
  match l with
  | [] => Err ValueError
  | x :: l => Ok (fold_left (fun m y => if Qle_bool m y then m else y) l x)
  end.

Definition py_max (l : list Q) : res Q :=
  match l with
  | [] => Err ValueError
  | x :: l => Ok (fold_left (fun m y => if Qle_bool y m then m else y) l x)
  end.

(** [ParameterSet.parameters], core.py:808-812 *)
Definition parameters (values : list (string * list Q)) : res (list (string * parameter)) :=
  mapM (fun kv => let* lo := py_min (snd kv) in
                  let* hi := py_max (snd kv) in
                  Ok (fst kv, {| lower_bound := lo; upper_bound := hi; periodicity := None |})) values.

(** [FixedAttributeValue], optimization.py:16-24 *)
Record fixed_attribute := { fixed_name : string; fixed_value : Q }.

(** [BoundedAttributeValue], optimization.py:27-47 *)
Record bounded_attribute := { attribute_name : string; min_value : Q; max_value : Q }.

Definition interval_length (self : bounded_attribute) : Q := max_value self - min_value self.

(** [dimensionless_to_value], optimization.py:49-51 *)
Definition dimensionless_to_value (self : bounded_attribute) (dimless_value : Q) : Q :=
  min_value self + dimless_value * interval_length self.

(** [dimensionless_value], optimization.py:53-55 *)
Definition dimensionless_value (self : bounded_attribute) (value : Q) : res Q :=
  py_div (value - min_value self) (interval_length self).

(** dictionaries, in insertion order *)
Fixpoint dict_set (d : list (string * Q)) (k : string) (v : Q) : list (string * Q) :=
  match d with
  | [] => [(k, v)]
  | (k', v') :: d' => if String.eqb k k' then (k', v) :: d' else (k', v') :: dict_set d' k v
  end.

Fixpoint dict_get (d : list (string * Q)) (k : string) : option Q :=
  match d with
  | [] => None
  | (k', v') :: d' => if String.eqb k k' then Some v' else dict_get d' k
  end.

Section Optimizer.
Variable fixed_parameters : list fixed_attribute.
Variable optimization_bounds : list bounded_attribute.

(** [dimensionless_vector_to_vector], optimization.py:108-110 *)
Definition dimensionless_vector_to_vector (dl_vector : list Q) : list Q :=
  map (fun xb => dimensionless_to_value (snd xb) (fst xb)) (combine dl_vector optimization_bounds).

(** [vector_to_attributes_values], optimization.py:112-118 *)
Definition vector_to_attributes_values (vector : list Q) : list (string * Q) :=
  fold_left (fun attributes bx => dict_set attributes (attribute_name (fst bx)) (snd bx))
    (combine optimization_bounds vector)
    (fold_left (fun attributes fp => dict_set attributes (fixed_name fp) (fixed_value fp))
       fixed_parameters []).

Variable model : Type.
Variable instantiate_model : list (string * Q) -> res model.
Variable objective_from_model : model -> res Q.
Variable getattr : model -> string -> res Q.
Variable minimize : (list Q -> res Q) -> list Q -> list (Q * Q) -> res (list Q * Q).
Variable fmin : (list Q -> res Q) -> list Q -> list (Q * Q) -> res (list Q * Q).
Variable random : nat -> list Q.

(** [objective_from_dimensionless_vector], optimization.py:120-124 *)
Definition objective_from_dimensionless_vector (dl_vector : list Q) : res Q :=
  let attributes_values := vector_to_attributes_values (dimensionless_vector_to_vector dl_vector) in
  let* m := instantiate_model attributes_values in
  objective_from_model m.

(** [scipy_bounds] and [cma_bounds], optimization.py:130-137 *)
Definition bounds : list (Q * Q) := map (fun _ => (0, 1)) optimization_bounds.

(** [optimize_gradient], optimization.py:139-149 *)
Definition optimize_gradient (x0 : option (list Q)) : res (model * Q) :=
  let x0 := match x0 with Some x => x | None => random (length optimization_bounds) end in
  let* result := minimize objective_from_dimensionless_vector x0 bounds in
  let attributes_values := vector_to_attributes_values (dimensionless_vector_to_vector (fst result)) in
  let* m := instantiate_model attributes_values in
  Ok (m, snd result).

(** [optimize_cma], optimization.py:151-161 *)
Definition optimize_cma : res (model * Q) :=
  let x0 := random (length optimization_bounds) in
  let* result := fmin objective_from_dimensionless_vector x0 bounds in
  let attributes_values := vector_to_attributes_values (dimensionless_vector_to_vector (fst result)) in
  let* m := instantiate_model attributes_values in
  Ok (m, snd result).

(** [optimize_cma_then_gradient], optimization.py:163-171 *)
Definition optimize_cma_then_gradient : res (model * Q) :=
  let* cma := optimize_cma in
  let* x0 := mapM (fun attr => getattr (fst cma) (attribute_name attr)) optimization_bounds in
  let* gradient := optimize_gradient (Some x0) in
  if Qle_bool (snd cma) (snd gradient) then Ok cma else Ok gradient.
End Optimizer.

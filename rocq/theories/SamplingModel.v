(** Model of /repo/dessia_common/datatools/sampling.py.

    Simplification: numbers are rationals, so that rounding is left out, and the
    numbers of values are natural.  pyDOE (fullfact, lhs), random.uniform and the class
    sampled are parameters; npy.linspace is modelled. *)
From Coq Require Import ZArith QArith String List Bool.
From Verif Require Import Base ParamModel.
Import ListNotations.
Open Scope Q_scope.

(** [BoundedAttributeValue] with its number of values, optimization.py:27-47 *)
Record sampled_attribute := { bounded : bounded_attribute; number : nat }.

(** [npy.linspace(min_value, max_value, n)] *)
Definition linspace (lo hi : Q) (n : nat) : list Q :=
  map (fun i => if (n =? 1)%nat then lo
                else lo + inject_Z (Z.of_nat i) * ((hi - lo) / inject_Z (Z.of_nat (n - 1)))) (seq 0 n).

Section Sampler.
Variable sampled_attributes : list sampled_attribute.
Variable constant_attributes : list fixed_attribute.
Variable object : Type.
Variable sampled_class : list (string * Q) -> res object.
Variable fullfact : list nat -> list (list nat).              (* pyDOE.fullfact *)
Variable pydoe_lhs : nat -> nat -> string -> list (list Q).   (* pyDOE.lhs *)
Variable uniform : nat -> nat -> Q -> Q -> Q.                 (* random.uniform at sample i, attribute j *)

(** [_get_attributes_names], sampling.py:41-42 *)
Definition attributes : list string :=
  map fixed_name constant_attributes ++ map (fun a => attribute_name (bounded a)) sampled_attributes.

(** [_get_instances_numbers], sampling.py:44-45 *)
Definition get_instances_numbers : list nat :=
  map (fun _ => 1%nat) constant_attributes ++ map number sampled_attributes.

(** [_build_parameter_grid], sampling.py:47-55 *)
Definition build_parameter_grid (instances_numbers : list nat) : list (list Q) :=
  let k := List.length constant_attributes in
  map (fun an => [fixed_value (fst an)]) (combine constant_attributes (firstn k instances_numbers))
  ++ map (fun an => linspace (min_value (bounded (fst an))) (max_value (bounded (fst an))) (snd an))
         (combine sampled_attributes (skipn k instances_numbers)).

(** [enumerate] *)
Definition enumerate {A} (l : list A) : list (nat * A) := combine (seq 0 (List.length l)) l.

(** [dict(zip(keys, values))] *)
Definition dict_zip (keys : list string) (values : list Q) : list (string * Q) :=
  fold_left (fun d kv => dict_set d (fst kv) (snd kv)) (combine keys values) [].

(** the arguments of the instances of [full_factorial], sampling.py:67-73 *)
Definition full_factorial_samples : res (list (list (string * Q))) :=
  let instances_numbers := get_instances_numbers in
  let parameter_grid := build_parameter_grid instances_numbers in
  mapM (fun idx_sample =>
          let* valued_sample :=
            mapM (fun ri => let* row := of_option IndexError (nth_error parameter_grid (fst ri)) in
                            of_option IndexError (nth_error row (snd ri)))
                 (enumerate idx_sample) in
          Ok (dict_zip attributes valued_sample))
       (fullfact instances_numbers).

(** [full_factorial], sampling.py:57-74 *)
Definition full_factorial : res (list object) :=
  let* samples := full_factorial_samples in mapM sampled_class samples.

Definition fixed_values : list Q := map fixed_value constant_attributes.

(** the arguments of the instances of [lhs], sampling.py:88-94 *)
Definition lhs_samples (samples : nat) (criterion : string) : list (list (string * Q)) :=
  map (fun nodim_sample =>
         let varying_values := map (fun av => dimensionless_to_value (bounded (fst av)) (snd av))
                                   (combine sampled_attributes nodim_sample) in
         dict_zip attributes (fixed_values ++ varying_values))
      (pydoe_lhs (List.length sampled_attributes) samples criterion).

(** [lhs], sampling.py:76-94 *)
Definition lhs (samples : nat) (criterion : string) : res (list object) :=
  mapM sampled_class (lhs_samples samples criterion).

(** the arguments of the instances of [montecarlo], sampling.py:96-115 *)
Definition montecarlo_samples (samples : nat) : list (list (string * Q)) :=
  map (fun i =>
         let varying_values := map (fun ja => uniform i (fst ja) (min_value (bounded (snd ja)))
                                                      (max_value (bounded (snd ja))))
                                   (enumerate sampled_attributes) in
         dict_zip attributes (fixed_values ++ varying_values))
      (seq 0 samples).

(** [montecarlo], sampling.py:96-115 *)
Definition montecarlo (samples : nat) : res (list object) :=
  mapM sampled_class (montecarlo_samples samples).

(** [_get_doe], sampling.py:117-124 *)
Definition get_doe (method : string) (samples : nat) (lhs_criterion : string) : res (list object) :=
  if String.eqb method "fullfact" then full_factorial
  else if String.eqb method "lhs" then lhs samples lhs_criterion
  else if String.eqb method "montecarlo" then montecarlo samples
  else Err NotImplementedError.
End Sampler.

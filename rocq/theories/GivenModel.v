(** Model of giving a workflow state the values of several inputs, or of the inputs of a block
    (/repo/dessia_common/workflow/core.py:1102-1106, 1858-1882). *)
From Coq Require Import List Bool Arith ZArith String.
From Verif Require Import Base ExecModel.
Import ListNotations.
Local Open Scope list_scope.
Local Open Scope nat_scope.

Section Given.
Context {V : Type}.
Variable w : workflow.
Variable type_ok : nat -> V -> bool.

(** block_inputs_global_indices, core.py:1102-1106 *)
Definition block_inputs_global_indices (bl : block) : list nat :=
  flat_map (fun v => match input_index w v with Some i => [i] | None => [] end) (b_in bl).

(** add_several_input_values, core.py:1862-1876; the state stays as it is when an exception comes.  Indices come from
    [block_inputs_global_indices] and are not negative. *)
Fixpoint add_several_input_values (values : nat -> option V) (indices : list nat) (s : state V) : state V * option exn :=
  match indices with
  | [] => (s, None)
  | index :: indices =>
    match nth_error (inputs w) index with
    | None => (s, Some IndexError)
    | Some input =>
      match (match values index with
             | Some value => Some value
             | None => if s_var s input then s_iv s index else None
             end) with
      | None => (s, Some ValueError)
      | Some value =>
        match add_input_value w type_ok index value s with
        | Ok s => add_several_input_values values indices s
        | Err e => (s, Some e)
        end
      end
    end
  end.

(** [{int(k): v for k, v in values.items()}]: the last of equal keys stays; [int_of] is python's int, when it gives a number. *)
Variable int_of : string -> option Z.
Fixpoint int_keys (values : list (string * V)) : res (list (Z * V)) :=
  match values with
  | [] => Ok []
  | (k, x) :: values =>
    let* z := of_option ValueError (int_of k) in
    let* r := int_keys values in
    Ok ((z, x) :: r)
  end.
Fixpoint last_value (values : list (Z * V)) (i : nat) : option V :=
  match values with
  | [] => None
  | (z, x) :: values =>
    match last_value values i with
    | Some y => Some y
    | None => if (z =? Z.of_nat i)%Z then Some x else None
    end
  end.
(** add_block_input_values, core.py:1878-1882 *)
Definition add_block_input_values (block_index : Z) (values : list (string * V)) (s : state V) : state V * option exn :=
  match int_keys values with
  | Err e => (s, Some e)
  | Ok values =>
    match py_get (blocks w) block_index with
    | Err e => (s, Some e)
    | Ok bl => add_several_input_values (last_value values) (block_inputs_global_indices bl) s
    end
  end.
End Given.

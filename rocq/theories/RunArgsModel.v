(** Model of how the arguments of a run are read from a dictionary
    (Workflow.dict_to_arguments, dessia_common/workflow/core.py:811-830). *)
From Coq Require Import Bool Arith List.
From Verif Require Import Base ExecModel.
Import ListNotations.

Section RunArgs.
Context {A V : Type}.
Variable w : workflow.
Variable default : nat -> option V.
Variable lock_flag : nat -> bool.
(** deserialize_argument with the type of the variable *)
Variable deserialize : nat -> A -> res V.
(** input_.name == RESULT_VARIABLE_NAME *)
Variable is_result_name : nat -> bool.
(** the argument itself when it is a string *)
Variable as_string : A -> option V.
Variable is_none : V -> bool.

Fixpoint lookup (i : nat) (d : list (nat * A)) : option A :=
  match d with
  | [] => None
  | (j, a) :: d' => if Nat.eqb i j then Some a else lookup i d'
  end.

(** Body of the loop; the state is the name and the argument values so far. *)
Definition read_input (d : list (nat * A)) (s : option V * list (nat * V)) (iv : nat * nat)
  : res (option V * list (nat * V)) :=
  let i := fst iv in
  let v := snd iv in
  let has_default := match default v with Some _ => true | None => false end in
  let present := match lookup i d with Some _ => true | None => false end in
  let overwritten := has_default && present in
  if negb has_default || overwritten then
    let* l := locked default lock_flag v in
    if (l : bool) then Ok s
    else
      let* a := of_option KeyError (lookup i d) in
      let* x := deserialize v a in
      Ok (if is_result_name v then Some x else fst s, snd s ++ [(i, x)])
  else Ok s.

(** [method] is 'run' or 'start_run' (allowed) or not. *)
Definition dict_to_arguments (allowed : bool) (d : list (nat * A)) : res (list (nat * V) * option V) :=
  if allowed then
    let* s := foldM (read_input d) (enumerate (inputs w)) (None, []) in
    let unnamed := match fst s with None => true | Some x => is_none x end in
    let name := if unnamed
                then match lookup (length (inputs w)) d with
                     | Some a => match as_string a with Some x => Some x | None => fst s end
                     | None => fst s
                     end
                else fst s in
    Ok (snd s, name)
  else Err NotImplementedError.
End RunArgs.

(** Model of the search of variables that can be wired together
    (dessia_common/workflow/core.py:1108-1169). *)
From Coq Require Import List Bool Arith.
From Verif Require Import Base ExecModel.
Import ListNotations.

(** [d[k] = x] *)
Fixpoint put_at {K A} (eqb : K -> K -> bool) (k : K) (x : A) (d : list (K * A)) : list (K * A) :=
  match d with
  | [] => [(k, x)]
  | (k', y) :: d' => if eqb k k' then (k', x) :: d' else (k', y) :: put_at eqb k x d'
  end.

Section Match.
Variable w : workflow.
(** [variable.type_], None when there is none, and [typematch], which may raise (it is in
    [TypingModel]) *)
Variable T : Type.
Variable type_ : nat -> option T.
Variable typematch : T -> T -> res bool.

(** variable_compatibility, core.py:1139-1169.  Taking a part of the address of a variable
    without block would raise TypeError. *)
Definition variable_compatibility (v o : nat) : res bool :=
  if Nat.eqb v o then Ok false
  else
    let* a := variable_indices w v in
    let* b := variable_indices w o in
    let* refused :=
      if negb (mem v (nonblock_variables w)) && negb (mem o (nonblock_variables w)) then
        match a, b with
        | APort n s _, APort m t _ => Ok (Nat.eqb n m || Bool.eqb s t)
        | _, _ => Err TypeError
        end
      else Ok false in
    if refused then Ok false
    else match type_ v, type_ o with Some _, Some _ => Ok true | _, _ => Ok false end.

Section Keys.
(** variables, or their addresses as texts if the output is serialized; [str] of an address
    is taken to be the address *)
Context {K : Type}.
Variable eqb : K -> K -> bool.
Variable key : nat -> res K.

(** the inner loop, core.py:1126-1136, for a variable of type [t] *)
Fixpoint matching (v : nat) (t : T) (os : list nat) : res (list K) :=
  match os with
  | [] => Ok []
  | o :: os' =>
    let* c := variable_compatibility v o in
    let* here :=
      if c then
        match type_ o with
        | Some u => let* b := typematch t u in if b then let* k := key o in Ok [k] else Ok []
        | None => Ok []
        end
      else Ok [] in
    let* rest := matching v t os' in
    Ok (here ++ rest)
  end.

(** the outer loop, core.py:1116-1137 *)
Fixpoint match_loop (vs : list nat) (d : list (K * list K)) : res (list (K * list K)) :=
  match vs with
  | [] => Ok d
  | v :: vs' =>
    match type_ v with
    | None => match_loop vs' d
    | Some t =>
      let* k := key v in
      let* l := matching v t (variables w) in
      match_loop vs' (put_at eqb k l d)
    end
  end.
End Keys.

(** match_variables, core.py:1108-1137, without and with [serialize_output] *)
Definition match_variables : res (list (nat * list nat)) := match_loop Nat.eqb (fun v => Ok v) (variables w) [].
Definition match_variables_serialized : res (list (address * list address)) :=
  match_loop address_eqb (variable_indices w) (variables w) [].
End Match.

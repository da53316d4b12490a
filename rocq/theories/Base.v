(** Shared vocabulary: python exceptions as values, result monad, list helpers. *)
From Coq Require Import ZArith List.
Import ListNotations.

(** Python exception classes that the modelled code raises. *)
Inductive exn :=
| ValueError | TypeError | KeyError | IndexError | AttributeError
| NotImplementedError | RecursionError | ZeroDivisionError
| WorkflowError | ExtractionError | SerializationError | RuntimeError
| UnboundLocalError | NameError | SyntaxError
| EvalError (n : nat)      (* exception raised by user code, e.g. a block function *)
| OutOfFuel.               (* artefact of the model, never a python exception *)

Inductive res (A : Type) :=
| Ok (a : A)
| Err (e : exn).
Arguments Ok {A} a.
Arguments Err {A} e.

Definition bind {A B} (r : res A) (f : A -> res B) : res B :=
  match r with Ok a => f a | Err e => Err e end.

Declare Scope res_scope.
Delimit Scope res_scope with res.
Notation "'let*' x ':=' r 'in' f" := (bind r (fun x => f))
  (at level 200, x pattern, r at level 100, f at level 200) : res_scope.
Open Scope res_scope.

Definition is_ok {A} (r : res A) : bool :=
  match r with Ok _ => true | Err _ => false end.

(** [map] of a function that may raise: stops at the first exception, like a
    list comprehension. *)
Fixpoint mapM {A B} (f : A -> res B) (l : list A) : res (list B) :=
  match l with
  | [] => Ok []
  | x :: l' => let* y := f x in let* ys := mapM f l' in Ok (y :: ys)
  end.

(** Left fold of a function that may raise: a python [for] loop over a state. *)
Fixpoint foldM {A S} (f : S -> A -> res S) (l : list A) (s : S) : res S :=
  match l with
  | [] => Ok s
  | x :: l' => let* s' := f s x in foldM f l' s'
  end.

(** [itertools.compress(l, mask)] *)
Fixpoint compress {A} (l : list A) (mask : list bool) : list A :=
  match l, mask with
  | x :: l', b :: m' => if b then x :: compress l' m' else compress l' m'
  | _, _ => []
  end.

(** [l.remove(x)]: removes the first occurrence, raises ValueError if absent. *)
Fixpoint remove_first {A} (eqb : A -> A -> bool) (x : A) (l : list A) : res (list A) :=
  match l with
  | [] => Err ValueError
  | y :: l' => if eqb x y then Ok l'
               else let* r := remove_first eqb x l' in Ok (y :: r)
  end.

(** [l.index(x)] *)
Fixpoint index_of {A} (eqb : A -> A -> bool) (x : A) (l : list A) : option nat :=
  match l with
  | [] => None
  | y :: l' => if eqb x y then Some 0 else option_map S (index_of eqb x l')
  end.

(** [x in l] *)
Definition memb {A} (eqb : A -> A -> bool) (x : A) (l : list A) : bool :=
  existsb (eqb x) l.

(** Order preserving removal of duplicates (keeps first occurrences). *)
Fixpoint dedup {A} (eqb : A -> A -> bool) (seen l : list A) : list A :=
  match l with
  | [] => []
  | x :: l' => if memb eqb x seen then dedup eqb seen l'
               else x :: dedup eqb (x :: seen) l'
  end.

(** Python list indexing [l[i]] with a possibly negative index. *)
Definition py_index (n : nat) (i : Z) : option nat :=
  if (0 <=? i)%Z then (if (i <? Z.of_nat n)%Z then Some (Z.to_nat i) else None)
  else if (- Z.of_nat n <=? i)%Z then Some (Z.to_nat (i + Z.of_nat n)) else None.

Definition py_get {A} (l : list A) (i : Z) : res A :=
  match py_index (length l) i with
  | Some k => match nth_error l k with Some x => Ok x | None => Err IndexError end
  | None => Err IndexError
  end.

Definition of_option {A} (e : exn) (o : option A) : res A :=
  match o with Some a => Ok a | None => Err e end.

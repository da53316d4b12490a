(** Model of deep copies (dessia_common/utils/copy.py:11-106 and
    dessia_common/core.py:318-363).  Objects live in a heap, so that sharing is visible. *)
From Coq Require Import ZArith Bool String Ascii List.
From Verif Require Import Base PyValue.
Import ListNotations.
Open Scope string_scope.
Open Scope list_scope.

(** Values in memory.  [MLeaf] is a number, a string, None or a class.  [MRef a] is the
    object at address [a].  Lists, tuples and dictionaries have no address: their identity
    is not modelled. *)
Inductive mval :=
| MLeaf (v : val)
| MList (l : list mval)
| MTuple (l : list mval)
| MDict (d : list (key * mval))
| MRef (a : nat).

(** The objects allocated, by address: class and [__dict__]. *)
Definition heap := list (string * list (key * mval)).

Record state := mkState { objects : heap; memo : list (nat * nat) }.
(** Computations that change the state, also when they raise *)
Definition M A := state -> res A * state.
Definition ret {A} (x : A) : M A := fun s => (Ok x, s).
Definition raise {A} (e : exn) : M A := fun s => (Err e, s).
Definition bindM {A B} (m : M A) (f : A -> M B) : M B :=
  fun s => match m s with (Ok x, s') => f x s' | (Err e, s') => (Err e, s') end.

Section Each.
Context {A B : Type}.
Variable f : A -> M B.
(** a loop that appends [f(x)] to a list *)
Fixpoint each (l : list A) : M (list B) :=
  match l with
  | [] => ret []
  | x :: l' => bindM (f x) (fun y => bindM (each l') (fun ys => ret (y :: ys)))
  end.
End Each.

Section Copy.
(** The names of the arguments of the constructor of a class (inspect.getfullargspec),
    'self' included *)
Variable arguments : string -> list string.
(** The constructor: the attributes of the object made from keyword arguments.  That it
    may allocate objects of its own is not modelled. *)
Variable construct : string -> list (string * mval) -> res (list (key * mval)).
(** [==] and [hash] of two objects: whether they are the same key for a dictionary *)
Variable same : nat -> nat -> bool.
(** keys that are tuples *)
Variable tuple_key : key -> bool.

(** search_memo, utils/copy.py:101-106, on an object: python's dictionaries look for
    identity, then equality.  Of several equal keys, the first inserted is taken.  On other
    values it never finds anything. *)
Definition held (k a : nat) : bool := Nat.eqb k a || same k a.
Definition search_memo (a : nat) (m : list (nat * nat)) : option nat :=
  option_map snd (find (fun kb => held (fst kb) a) m).
(** [memo[value] = copied_value] *)
Fixpoint set_memo (a b : nat) (m : list (nat * nat)) : list (nat * nat) :=
  match m with
  | [] => [(a, b)]
  | (k, c) :: m' => if held k a then (k, b) :: m' else (k, c) :: set_memo a b m'
  end.

Definition leaf (v : val) : bool :=
  match v with VNone | VBool _ | VInt _ | VFloat _ | VStr _ | VClass _ _ => true | _ => false end.

(** The loop of __deepcopy__, core.py:357-360: [getattr] raises AttributeError *)
Definition copy_arguments (copy : mval -> M mval) (d : list (key * mval)) : list string -> M (list (string * mval)) :=
  each (fun s => match lookup (KStr s) d with
                 | None => raise AttributeError
                 | Some x => bindM (copy x) (fun y => ret (s, y))
                 end).
(** DessiaObject.__deepcopy__, core.py:348-363: the address of the copy.  copy.deepcopy of
    the standard library, called by DessiaObject.copy (core.py:318-327), also looks for
    [id(self)] in the memo: it never finds what search_memo has not. *)
Definition copy_object (copy : mval -> M mval) (a : nat) : M nat := fun s =>
  match nth_error (objects s) a with
  | None => (Err KeyError, s)
  | Some (c, d) =>
    match copy_arguments copy d (filter (fun arg => negb (String.eqb arg "self")) (arguments c)) s with
    | (Err e, s1) => (Err e, s1)
    | (Ok kw, s1) =>
      match construct c kw with
      | Err e => (Err e, s1)
      | Ok attrs => (Ok (length (objects s1)), mkState (objects s1 ++ [(c, attrs)]) (memo s1))
      end
    end
  end.

(** deepcopy_value, deepcopy_dict and deepcopy_sequence, utils/copy.py:11-98.  Points,
    vectors, files and foreign objects with a __deepcopy__ are left out, so are objects used
    as keys.  A TypeError raised while copying an object is caught, the copy is started
    again with an empty memo (lines 43-47).  A tuple used as key is copied to a list, that
    cannot be a key (line 81).  Recursion is on fuel. *)
Fixpoint deepcopy_value (n : nat) (v : mval) : M mval :=
  match n with
  | O => raise OutOfFuel
  | S n' =>
    match v with
    | MLeaf x => if leaf x then ret (MLeaf x) else raise NotImplementedError
    | MRef a => fun s =>
      match search_memo a (memo s) with
      | Some b => (Ok (MRef b), s)
      | None =>
        match copy_object (deepcopy_value n') a s with
        | (Ok b, s1) => (Ok (MRef b), mkState (objects s1) (set_memo a b (memo s1)))
        | (Err TypeError, s1) =>
          match copy_object (deepcopy_value n') a (mkState (objects s1) []) with
          | (Ok b, s2) => (Ok (MRef b), mkState (objects s2) (set_memo a b (memo s1)))
          | (Err e, s2) => (Err e, mkState (objects s2) (memo s1))
          end
        | (Err e, s1) => (Err e, s1)
        end
      end
    | MList l | MTuple l => bindM (each (deepcopy_value n') l) (fun m => ret (MList m))
    | MDict d =>
      bindM (each (fun kv => bindM (deepcopy_value n' (snd kv))
                     (fun y => if tuple_key (fst kv) then raise TypeError else ret (fst kv, y))) d)
            (fun e => ret (MDict (fold_left (fun acc kv => set_key (fst kv) (snd kv) acc) e [])))
    end
  end.

(** [object.copy()], core.py:318-327: the address of the copy and the heap *)
Definition copy (n : nat) (a : nat) (h : heap) : res nat * heap :=
  let (r, s) := copy_object (deepcopy_value n) a (mkState h []) in (r, objects s).
End Copy.

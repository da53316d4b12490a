(** What the collection blocks are for, stated without the evaluation functions. *)
From Coq Require Import ZArith List String Ascii Arith.
From Verif Require Import Base BlocksModel.
Import ListNotations.
Open Scope string_scope.
Open Scope list_scope.
Open Scope nat_scope.

(** The elements a python loop over the value meets, in order. *)
Inductive elements : val -> list val -> Prop :=
| el_list l : elements (VList l) l
| el_tuple l : elements (VTuple l) l
| el_data x l : elements (VData (x :: l)) (x :: l)
| el_str s l : chars_are s l -> elements (VStr s) l
with chars_are : string -> list val -> Prop :=
| ca_nil : chars_are EmptyString []
| ca_cons c s l : chars_are s l -> chars_are (String c s) (VStr (String c EmptyString) :: l).

(** An empty dataset *)
Definition empty_dataset (v : val) : Prop := v = VData [].

(** The value has no elements a loop could meet: [for] raises TypeError *)
Definition not_iterable (v : val) : Prop :=
  match v with VInt _ | VObj _ _ => True | _ => False end.

(** How many items are asked for when looping over the value *)
Definition size (v : val) : nat :=
  match v with VList l | VTuple l | VData l => S (List.length l) | VStr s => S (String.length s)
             | _ => 0 end.

(** The value of each input, in the order of the inputs *)
Definition bound (values : list (nat * val)) (inputs : list nat) (vs : list val) : Prop :=
  Forall2 (fun x v => In (x, v) values) inputs vs.

(** A dictionary: each variable once *)
Definition is_dict (values : list (nat * val)) : Prop := NoDup (map fst values).

(** The rank of a combination of positions among all combinations, the last
    position moving fastest, for lists of the given lengths. *)
Fixpoint rank (lengths : list nat) (positions : list nat) : nat :=
  match lengths, positions with
  | n :: lengths', p :: positions' =>
      p * fold_right Nat.mul 1 lengths' + rank lengths' positions'
  | _, _ => 0
  end.

Definition designates (lists : list (list val)) (positions : list nat) (combination : list val)
  : Prop :=
  Forall2 (fun lp v => nth_error (fst lp) (snd lp) = Some v) (combine lists positions) combination
  /\ List.length positions = List.length lists.

(** Two combinations of positions in lexicographic order *)
Fixpoint lex (p q : list nat) : Prop :=
  match p, q with
  | a :: p', b :: q' => a < b \/ (a = b /\ lex p' q')
  | _, _ => False
  end.

(** The arguments the sub-workflow is run with for one element: input [k] gets the
    element, every other input the value bound to it. *)
Definition arguments_for (k : nat) (element : val) (bindings : list val) : list (nat * val) :=
  map (fun iv => (fst iv, if Nat.eqb (fst iv) k then element else snd iv))
      (combine (seq 0 (List.length bindings)) bindings).

(** The strings one after the other with the separator between them *)
Inductive joined (sep : string) : list string -> string -> Prop :=
| j_nil : joined sep [] ""
| j_one s : joined sep [s] s
| j_more s l t : l <> [] -> joined sep l t -> joined sep (s :: l) (s ++ sep ++ t)%string.

(** The named arguments user code is called with: the name and value of each input
    that has a value, in the order of the inputs. *)
Inductive given (values : list (nat * val)) : list (nat * string) -> list (string * val) -> Prop :=
| g_nil : given values [] []
| g_value x n v inputs arguments :
    In (x, v) values -> given values inputs arguments ->
    given values ((x, n) :: inputs) ((n, v) :: arguments)
| g_none x n inputs arguments :
    ~ In x (map fst values) -> given values inputs arguments ->
    given values ((x, n) :: inputs) arguments.

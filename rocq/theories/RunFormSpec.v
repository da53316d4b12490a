(** What the form of the run of a workflow should be. *)
From Coq Require Import List String Bool Arith DecimalString Permutation.
From Verif Require Import Base RunFormModel.
Import ListNotations.
Local Open Scope string_scope.
Local Open Scope list_scope.

Section Spec.
Context {T X C P F R B : Type}.
Variable var : nat -> variable T X.
Variables inputs nonblock detached : list nat.
Variable steps : list (step R).
Variable spare : list nat.
Variable upstream : nat -> nat.
Variable block_of : nat -> res B.
Variable block_name : B -> string.
Variable input_doc : B -> nat -> C.
Variable empty_doc : C.
Variable pretty : string -> string.
Variable get_schema : T -> attribute X C -> res P.
Variable to_dict : P -> res F.

(** Each input is in one step, or spare, once; inputs have nothing upstream; those that are not free belong to blocks. *)
Definition arranged : Prop :=
  NoDup inputs /\ Permutation (spare ++ List.concat (map s_inputs steps)) inputs /\
  forall v, In v inputs -> upstream v = v /\ (In v nonblock \/ In v detached \/ exists b, block_of v = Ok b).

Inductive titled (v : nat) : string -> Prop :=
| title_label : v_label (var v) <> "" -> titled v (v_label (var v))
| title_free : v_label (var v) = "" -> In v nonblock -> titled v (pretty (v_name (var v)))
| title_block b : v_label (var v) = "" -> ~ In v nonblock -> ~ In v detached -> block_of v = Ok b ->
    titled v (block_name b ++ " - " ++ pretty (v_name (var v)))%string
| title_detached : v_label (var v) = "" -> ~ In v nonblock -> In v detached -> titled v "".
Inductive documented (v : nat) : C -> Prop :=
| doc_block b : ~ In v nonblock -> ~ In v detached -> block_of v = Ok b -> documented v (input_doc b v)
| doc_free : In v nonblock \/ In v detached -> documented v empty_doc.

(** The property of an input: its key is its place among the inputs. *)
Definition property (v : nat) (f : F) : Prop := exists i t c p,
  nth_error inputs i = Some v /\ titled v t /\ documented v c /\ (v_locked (var v) = true -> v_default (var v) <> None) /\
  get_schema (v_type (var v)) (Attribute X C (NilZero.string_of_uint (Nat.to_uint i)) (v_default (var v)) t (negb (v_locked (var v))) c) = Ok p /\
  to_dict p = Ok f.
Definition in_group (s : step R) (v : nat) : bool := memb Nat.eqb v (s_group s).
(** The form of a step has the properties of its inputs that are not in its group, then the group if it has any. *)
Definition step_shown (s : step R) (f : step_form F R) : Prop :=
  f_label f = s_label s /\ f_rest f = s_rest s /\
  Forall2 property (filter (fun v => negb (in_group s v)) (s_inputs s)) (f_properties f) /\
  match f_group f with
  | None => forall v, In v (s_inputs s) -> ~ In v (s_group s)
  | Some g => (exists v, In v (s_inputs s) /\ In v (s_group s)) /\ Forall2 property (filter (in_group s) (s_inputs s)) (g_properties g) /\ g_key g = s_group_id s /\
    (s_selector s = None -> g_title g = Some ("Group '" ++ s_label s ++ "'")%string) /\
    (s_selector s = Some None -> g_title g = None) /\
    (forall t, s_selector s = Some (Some t) -> t <> "" -> g_title g = Some t) /\
    (s_selector s = Some (Some "") -> g_title g = Some (pretty (s_group_id s)))
  end.
(** All the properties of a form. *)
Definition all_properties (r : list (step_form F R) * list F) : list F :=
  snd r ++ flat_map (fun f => f_properties f ++ match f_group f with Some g => g_properties g | None => [] end) (fst r).
End Spec.

(** Vocabulary for values that can be serialised. *)
From Coq Require Import ZArith Bool String List.
From Verif Require Import Base PyValue.
Import ListNotations.
Open Scope list_scope.

(** a key that is a string or an integer *)
Definition simple_key (k : key) : Prop := match k with KOther _ => False | _ => True end.
(** values without classes, but inside objects, and with strings and integers as keys *)
Inductive simple : val -> Prop :=
| simple_none : simple VNone
| simple_bool b : simple (VBool b)
| simple_int z : simple (VInt z)
| simple_float f : simple (VFloat f)
| simple_str s : simple (VStr s)
| simple_list l : Forall simple l -> simple (VList l)
| simple_tuple l : Forall simple l -> simple (VTuple l)
| simple_dict d : Forall (fun kv => simple_key (fst kv)) d -> Forall (fun kv => simple (snd kv)) d -> simple (VDict d)
| simple_obj c d : simple (VObj c d).
(** moreover without objects *)
Inductive objectless : val -> Prop :=
| less_none : objectless VNone
| less_bool b : objectless (VBool b)
| less_int z : objectless (VInt z)
| less_float f : objectless (VFloat f)
| less_str s : objectless (VStr s)
| less_class n b : objectless (VClass n b)
| less_list l : Forall objectless l -> objectless (VList l)
| less_tuple l : Forall objectless l -> objectless (VTuple l)
| less_dict d : Forall (fun kv => simple_key (fst kv)) d -> Forall (fun kv => objectless (snd kv)) d -> objectless (VDict d).

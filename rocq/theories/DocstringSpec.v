(** What docstrings and pretty names should give, said without the code. *)
From Coq Require Import Ascii String List Bool Arith.
From Verif Require Import Base AnnotationModel.
Import ListNotations.
Local Open Scope char_scope.
Local Open Scope list_scope.
Local Open Scope nat_scope.

(** A text inside another *)
Definition occurs (p s : str) : Prop := exists a b, s = a ++ p ++ b.

(** White space, and a text without the white space around it *)
Definition white (c : ascii) : Prop := In (nat_of_ascii c) [9; 10; 11; 12; 13; 28; 29; 30; 31; 32].
Definition trimmed (s t : str) : Prop :=
  exists a b, s = a ++ t ++ b /\ Forall white a /\ Forall white b /\
    (forall c t', t = c :: t' -> ~ white c) /\ (forall c t', t = t' ++ [c] -> ~ white c).

(** A documented argument: its name, its description, what follows ":type " if it is there *)
Definition param := (str * str * option str)%type.
Definition param_text (p : param) : str :=
  let '(n, d, t) := p in
  n ++ ":" :: d ++ match t with Some t => chars ":type " ++ t | None => [] end.

(** A docstring: a description then its arguments *)
Definition doc_text (description : str) (params : list param) : str :=
  description ++ concat (map (fun p => chars ":param " ++ param_text p) params).

(** No marker where it is not meant *)
Definition well_written (description : str) (params : list param) : Prop :=
  ~ occurs (chars ":return:") (doc_text description params) /\
  ~ occurs (chars ":param ") description /\
  Forall (fun p => ~ occurs (chars ":param ") (param_text p)) params /\
  Forall (fun p => ~ In ":" (fst (fst p))) params /\
  Forall (fun p => ~ occurs (chars ":type") (fst (fst p) ++ ":" :: snd (fst p))) params.

(** The uppercase of a letter *)
Definition capital (c d : ascii) : Prop :=
  (97 <= nat_of_ascii c <= 122 /\ nat_of_ascii d = nat_of_ascii c - 32) \/
  (~ 97 <= nat_of_ascii c <= 122 /\ d = c).

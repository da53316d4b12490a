(** What a drawn graph should be. *)
From Coq Require Import List String Bool Arith ZArith.
From Verif Require Import Base DrawnModel.
Import ListNotations.
Local Open Scope string_scope.

(** networkx graphs: nodes come once, edges are between nodes. *)
Definition proper (g : graph) : Prop := NoDup (map fst (nodes g)) /\ forall e, In e (edges g) -> In (tail e) (map fst (nodes g)) /\ In (head e) (map fst (nodes g)).
Definition nameless (a : attributes) : Prop := name a = None /\ label a <> None.
(** The text of a node. *)
Inductive text (str_int : Z -> string) : node -> attributes -> string -> Prop :=
| text_named n a s : name a = Some s -> label a = None -> text str_int n a s
| text_labelled n a s l : name a = Some s -> label a = Some l -> text str_int n a (s ++ l)
| text_string s a : name a = None -> label a = None -> text str_int (NStr s) a s
| text_integer z a : name a = None -> label a = None -> text str_int (NInt z) a (str_int z)
| text_other k a : name a = None -> label a = None -> text str_int (NOther k) a "".
Definition anonymous (a : attributes) : Prop := name a = None /\ label a = None.

(** Model of graphs drawn in a browser (/repo/dessia_common/displays.py:108-160). *)
From Coq Require Import List String Bool Arith ZArith.
From Verif Require Import Base.
Import ListNotations.
Local Open Scope string_scope.
Local Open Scope list_scope.
Local Open Scope nat_scope.

(** Nodes are strings, integers (not booleans), or other objects known by a number. *)
Inductive node := NStr (s : string) | NInt (z : Z) | NOther (n : nat).
Definition node_eqb (a b : node) : bool :=
  match a, b with
  | NStr s, NStr t => String.eqb s t
  | NInt x, NInt y => Z.eqb x y
  | NOther n, NOther m => Nat.eqb n m
  | _, _ => false
  end.
(** The attributes of a node that are looked at. *)
Record attributes := Attributes { name : option string; label : option string; shape : option string; color : option string }.
Record edge := Edge { tail : node; head : node; head_type : option string; edge_color : option string }.
Record graph := Graph { graph_name : string; directed : bool; nodes : list (node * attributes); edges : list edge }.

(** What is given to visjs; [D] are coordinates. *)
Inductive arrows := NoArrows | To | Typed (type : string).
Record node_data {D : Type} := NodeData { id : nat; position : option D; n_label : string; n_title : option string; n_shape : string; n_color : option string }.
Arguments node_data : clear implicits.
Record edge_data := EdgeData { from : nat; to : nat; e_arrows : arrows; e_color : option string }.

Section Drawn.
Context {D : Type}.
(** kamada_kawai_layout of networkx, and str of an integer. *)
Variable pos : node -> option D.
Variable str_int : Z -> string.

(** displays.py:120-126 *)
Definition own_label (n : node) : string := match n with NStr s => s | NInt z => str_int z | NOther _ => "" end.
(** displays.py:119-133: the label, and the title when there is one.  Lengths are in characters of the string. *)
Definition labels (n : node) (a : attributes) : res (string * option string) :=
  match name a, label a with
  | None, None =>
    let title := own_label n in
    Ok (if 10 <? String.length title then "[ ]" else title, Some title)
  | Some s, None => Ok (s, None)
  | o, Some l =>
    let* s := of_option KeyError o in
    Ok ((s ++ l)%string, None)
  end.
(** displays.py:114-142 *)
Definition draw_node (i : nat) (n : node) (a : attributes) : res (node_data D) :=
  let* l := labels n a in
  Ok (NodeData D i (pos n) (fst l) (snd l) (match shape a with Some s => s | None => "circular" end) (color a)).
Fixpoint draw_nodes (i : nat) (l : list (node * attributes)) : res (list (node_data D)) :=
  match l with
  | [] => Ok []
  | (n, a) :: l =>
    let* d := draw_node i n a in
    let* r := draw_nodes (S i) l in
    Ok (d :: r)
  end.
(** displays.py:144-159; "font" is the same for all edges and left out. *)
Definition draw_edge (g : graph) (e : edge) : res edge_data :=
  let list_nodes := map fst (nodes g) in
  let* i1 := of_option ValueError (index_of node_eqb (tail e) list_nodes) in
  let* i2 := of_option ValueError (index_of node_eqb (head e) list_nodes) in
  Ok (EdgeData i1 i2 (if directed g then match head_type e with Some t => Typed t | None => To end else NoArrows) (edge_color e)).
(** networkx_to_visjs_data, displays.py:108-160 *)
Definition networkx_to_visjs_data (g : graph) : res (string * list (node_data D) * list edge_data) :=
  let* ns := draw_nodes 0 (nodes g) in
  let* es := mapM (draw_edge g) (edges g) in
  Ok (graph_name g, ns, es).
End Drawn.

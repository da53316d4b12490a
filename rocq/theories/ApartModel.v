(** Model of the search of elements of a workflow that are not attached to its output
    (dessia_common/workflow/core.py:861-874 and 1078-1089). *)
From Coq Require Import Bool Arith List.
From Verif Require Import Base ExecModel.
Import ListNotations.

(** A node of the graph of a workflow: a variable, or a block by its position. *)
Inductive node := NVar (v : nat) | NBlock (n : nat).
Definition node_eqb (x y : node) : bool :=
  match x, y with
  | NVar u, NVar v => Nat.eqb u v
  | NBlock m, NBlock n => Nat.eqb m n
  | _, _ => false
  end.

(** The edges of Workflow._graph, core.py:861-874; the graph is cached (core.py:853-857), which
    is left out.  Its nodes are the variables and blocks of the workflow. *)
Definition block_edges (nb : nat * block) : list (node * node) :=
  map (fun v => (NVar v, NBlock (fst nb))) (b_in (snd nb))
  ++ map (fun v => (NBlock (fst nb), NVar v)) (b_out (snd nb)).
Definition edges (w : workflow) : list (node * node) :=
  flat_map block_edges (enumerate (blocks w)) ++ map (fun p => (NVar (fst p), NVar (snd p))) (pipes w).

(** networkx.ancestors: all nodes that have a path to [x], without [x].  A search by rounds;
    in each round the nodes with an edge to a known one are added. *)
Definition fresh (es : list (node * node)) (known : list node) : list node :=
  map fst (filter (fun e => memb node_eqb (snd e) known && negb (memb node_eqb (fst e) known)) es).
Fixpoint search (n : nat) (es : list (node * node)) (known : list node) : list node :=
  match n with
  | O => known
  | S n' => match fresh es known with [] => known | l => search n' es (known ++ l) end
  end.
Definition ancestors (es : list (node * node)) (x : node) : list node :=
  filter (fun y => negb (node_eqb y x)) (search (S (length es)) es [x]).

(** networkx.NetworkXError, raised for a node that is not in the graph *)
Definition networkx_error : exn := EvalError 0.

(** output_disconnected_elements, core.py:1078-1089 *)
Definition output_disconnected_elements (w : workflow) : res (list node) :=
  match output w with
  | None => Err networkx_error
  | Some o =>
    if mem o (variables w) then
      let anc := ancestors (edges w) (NVar o) in
      let disconnected := filter (fun x => negb (memb node_eqb x anc)) in
      Ok (disconnected (map (fun nb => NBlock (fst nb)) (enumerate (blocks w)))
          ++ disconnected (map NVar (nonblock_variables w)))
    else Err networkx_error
  end.

(** Model of the parts of graphs that are cut or extracted (/repo/dessia_common/graph.py:15-52). *)
From Coq Require Import List Bool Arith.
From Verif Require Import Base.
Import ListNotations.

(** A directed graph of networkx. *)
Record graph := Graph { nodes : list nat; edges : list (nat * nat) }.
Definition out_degree (g : graph) (v : nat) : nat := List.length (filter (fun e => fst e =? v) (edges g)).
Definition in_degree (g : graph) (v : nat) : nat := List.length (filter (fun e => snd e =? v) (edges g)).
(** nx.subgraph *)
Definition subgraph (g : graph) (keep : list nat) : graph :=
  let kept v := memb Nat.eqb v keep in
  Graph (filter kept (nodes g)) (filter (fun e => kept (fst e) && kept (snd e)) (edges g)).

(** cut_tree_final_branches, graph.py:15-35.  The predecessors of a node are an iterator, which is no node, so that its
    in degree is a view that is not 1 and the inner loop is depth after its first turn. *)
Definition nodes_to_delete (g : graph) : list nat := filter (fun v => (out_degree g v =? 0) && (in_degree g v =? 1)) (nodes g).
Fixpoint cut_tree_final_branches (fuel : nat) (g : graph) : res graph :=
  match fuel with
  | 0 => Err OutOfFuel
  | S fuel =>
    let delete := nodes_to_delete g in
    if List.length delete =? 0 then Ok g
    else cut_tree_final_branches fuel (subgraph g (filter (fun n => negb (memb Nat.eqb n delete)) (nodes g)))
  end.

(** nx.dfs_edges with a depth limit: the visited nodes and the edges, from a node whose depth is depth. *)
Definition successors (g : graph) (v : nat) : list nat := map snd (filter (fun e => fst e =? v) (edges g)).
Fixpoint dfs (g : graph) (depth : nat) (v : nat) (st : list nat * list (nat * nat)) : list nat * list (nat * nat) :=
  fold_left (fun st child =>
    if memb Nat.eqb child (fst st) then st else
    let st := (child :: fst st, snd st ++ [(v, child)]) in
    match depth with
    | S depth => if depth =? 0 then st else dfs g depth child st
    | 0 => st
    end) (successors g v) st.
Definition dfs_edges (g : graph) (source : nat) (depth_limit : nat) : list (nat * nat) := snd (dfs g depth_limit source ([source], [])).

Section Region.
(** nx.ancestors *)
Variable ancestors : graph -> nat -> list nat.
(** extract_region, 38-52.  The keys of dfs_successors are the nodes that have a successor in the tree of the search,
    those of dfs_predecessors the nodes that have a predecessor.  What is printed is depth out. *)
Fixpoint region_nodes (g : graph) (l : list nat) (distance : nat) : res (list nat) :=
  match l with
  | [] => Ok []
  | v :: l =>
    if negb (memb Nat.eqb v (nodes g)) then Err ValueError else
    let tree := dfs_edges g v distance in
    let* rest := region_nodes g l distance in
    Ok (map fst tree ++ map snd tree ++ ancestors g v ++ rest)
  end.
Definition extract_region (g : graph) (l : list nat) (distance : nat) : res graph :=
  let* r := region_nodes g l distance in Ok (subgraph g (l ++ r)).
End Region.

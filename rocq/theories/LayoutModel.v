(** Model of the layout of a workflow (dessia_common/graph.py and
    dessia_common/workflow/core.py). *)
From Coq Require Import Bool Arith ZArith List.
From Verif Require Import Base ExecModel.
Import ListNotations.

(** Nodes are blocks, given by their index, and variables outside blocks. *)
Inductive node := NBlock (i : nat) | NVar (v : var).
Definition node_eqb (a b : node) : bool :=
  match a, b with
  | NBlock i, NBlock j => Nat.eqb i j
  | NVar u, NVar v => Nat.eqb u v
  | _, _ => false
  end.

(** A networkx.DiGraph: its nodes in the order of their iteration and its edges. *)
Record graph := mkGraph { g_nodes : list node; g_edges : list (node * node) }.

(** Dictionaries in the order of their keys. *)
Definition get {K X} (eqb : K -> K -> bool) (k : K) (d : list (K * X)) : option X :=
  option_map snd (find (fun e => eqb (fst e) k) d).
Fixpoint put {K X} (eqb : K -> K -> bool) (k : K) (x : X) (d : list (K * X)) : list (K * X) :=
  match d with
  | [] => [(k, x)]
  | e :: d' => if eqb (fst e) k then (k, x) :: d' else e :: put eqb k x d'
  end.

Definition last_error {A} (l : list A) : option A := hd_error (rev l).

(** The exception networkx raises when asked for the longest path of a graph with a
    cycle (NetworkXUnfeasible). *)
Definition unfeasible : exn := EvalError 0.

Section Networkx.
(** Functions of networkx.  [dag_longest_path] gives None for NetworkXUnfeasible;
    [shortest_simple_paths] lists the paths before it stops or raises NetworkXNoPath,
    which happens when there is none. *)
Variable dag_longest_path : graph -> option (list node).
Variable shortest_simple_paths : graph -> node -> node -> list (list node).
Variable connected_components : graph -> list (list node).
(** The order in which the nodes of a component are iterated over in the subgraph: a
    component is a python set, and the nodes of a subgraph view come in the order of
    the set or in the order of the graph. *)
Variable arrange : list node -> list node.

(** graph.py:55-57; None stands for NetworkXNoPath. *)
Definition get_longest_path (g : graph) (a b : node) : option (list node) :=
  last_error (shortest_simple_paths g a b).

(** graph.py:60-76 *)
Definition get_paths_from_to (g : graph) (origins destinations : list node) : list (list node) :=
  flat_map (fun o => flat_map (fun d => match get_longest_path g o d with
                                        | Some p => [p]
                                        | None => []
                                        end) destinations) origins.

(** The inner loop of get_column_by_node, graph.py:95-98, for one path. *)
Definition push (n : node) (columns : list (node * Z)) (path : list node) : res (list (node * Z)) :=
  let* o := of_option IndexError (hd_error path) in
  let* c := of_option KeyError (get node_eqb o columns) in
  let index := (c + Z.of_nat (length path) - 1)%Z in
  Ok (match get node_eqb n columns with
      | None => put node_eqb n index columns
      | Some k => if (k <? index)%Z then put node_eqb n index columns else columns
      end).

(** The body of the second loop of get_column_by_node, graph.py:89-98. *)
Definition place (g : graph) (longest : list node) (end_of_path : node)
    (columns : list (node * Z)) (n : node) : res (list (node * Z)) :=
  match get_longest_path g n end_of_path with
  | Some path => Ok (put node_eqb n (Z.of_nat (length longest) - Z.of_nat (length path))%Z columns)
  | None => foldM (push n) (get_paths_from_to g (g_nodes g) [n]) columns
  end.

(** graph.py:79-100 *)
Definition get_column_by_node (g : graph) : res (list (node * Z)) :=
  let* longest := of_option unfeasible (dag_longest_path g) in
  let* end_of_path := of_option IndexError (last_error longest) in
  let* columns := foldM (fun columns n =>
                           let* i := of_option ValueError (index_of node_eqb n longest) in
                           Ok (put node_eqb n (Z.of_nat i) columns)) longest [] in
  foldM (place g longest end_of_path)
    (filter (fun n => negb (memb node_eqb n longest)) (g_nodes g)) columns.

(** Workflow.nodes, workflow/core.py:416-419. *)
Definition nodes (w : workflow) : list node :=
  map NBlock (seq 0 (length (blocks w))) ++ map NVar (nonblock_variables w).

(** Workflow.layout_graph, workflow/core.py:1171-1184. *)
Definition layout_edge (w : workflow) (p : var * var) : res (node * node) :=
  let* a := if mem (fst p) (nonblock_variables w) then Ok (NVar (fst p))
            else let* b := block_from_variable w (fst p) in Ok (NBlock b) in
  let* b := block_from_variable w (snd p) in
  Ok (a, NBlock b).
Definition layout_graph (w : workflow) : res graph :=
  let* edges := mapM (layout_edge w) (pipes w) in
  Ok (mkGraph (nodes w) edges).

(** Workflow.graph_columns, workflow/core.py:1186-1197. *)
Definition graph_columns (w : workflow) (g : graph) : res (list (list nat)) :=
  let* column_by_node := get_column_by_node g in
  let* nodes_by_column :=
    foldM (fun d nc =>
             let* i := of_option ValueError (index_of node_eqb (fst nc) (nodes w)) in
             let l := match get Z.eqb (snd nc) d with Some l => l | None => [] end in
             Ok (put Z.eqb (snd nc) (l ++ [i]) d)) column_by_node [] in
  Ok (map snd nodes_by_column).

(** The subgraph of the nodes [c], iterated over in the order of [c]. *)
Definition subgraph (g : graph) (c : list node) : graph :=
  mkGraph c (filter (fun e => memb node_eqb (fst e) c && memb node_eqb (snd e) c) (g_edges g)).

(** Workflow.layout, workflow/core.py:1199-1209. *)
Definition layout (w : workflow) : res (list (list (list nat))) :=
  let* g := layout_graph w in
  mapM (fun c => graph_columns w (subgraph g (arrange c))) (connected_components g).

End Networkx.

(** Vocabulary of the statements about layouts. *)
From Coq Require Import List ZArith Relations Permutation Sorted.
From Verif Require Import Base ExecModel Topo LayoutModel.
Import ListNotations.

(** [route E a b k]: one goes from [a] to [b] along [k] edges. *)
Inductive route (E : list (node * node)) : node -> node -> nat -> Prop :=
| route_here a : route E a a 0
| route_edge a b c k : In (a, b) E -> route E b c k -> route E a c (S k).

Definition leads E a b : Prop := exists k, route E a b k.
(** [k] edges at most, and [k] is reached. *)
Definition farthest E a b k : Prop := route E a b k /\ forall j, route E a b j -> j <= k.
Definition acyclic E : Prop := forall a k, ~ route E a a (S k).
Definition joined (E : list (node * node)) : node -> node -> Prop :=
  clos_refl_sym_trans node (fun a b => In (a, b) E).

(** Every node once, edges between nodes. *)
Definition proper (g : graph) : Prop :=
  NoDup (g_nodes g) /\ forall a b, In (a, b) (g_edges g) -> In a (g_nodes g) /\ In b (g_nodes g).

(** Sequences of nodes along edges. *)
Inductive chain (E : list (node * node)) : list node -> Prop :=
| chain_one a : chain E [a]
| chain_cons a b l : In (a, b) E -> chain E (b :: l) -> chain E (a :: b :: l).

(** A longest path of a graph: it stays in the graph and no other is longer. *)
Definition longest_path (g : graph) (p : list node) : Prop :=
  chain (g_edges g) p /\ incl p (g_nodes g)
  /\ forall q, chain (g_edges g) q -> incl q (g_nodes g) -> length q <= length p.

(** What networkx promises: dag_longest_path gives one of the longest paths of a
    graph without cycle ... *)
Definition gives_longest_path (f : graph -> option (list node)) : Prop :=
  forall g, proper g ->
    (acyclic (g_edges g) -> exists p, f g = Some p /\ (g_nodes g = [] -> p = []) /\ (g_nodes g <> [] -> longest_path g p))
    /\ (~ acyclic (g_edges g) -> f g = None).

(** ... shortest_simple_paths lists the paths that visit no node twice, shortest
    first ... *)
Definition lists_simple_paths (f : graph -> node -> node -> list (list node)) : Prop :=
  forall g a b, proper g -> In a (g_nodes g) -> In b (g_nodes g) ->
    (forall l, In l (f g a b) <->
       chain (g_edges g) l /\ NoDup l /\ (exists t, l = a :: t) /\ (exists h, l = h ++ [b]))
    /\ StronglySorted (fun p q => length p <= length q) (f g a b).

(** ... and connected_components lists the classes of the nodes joined by edges. *)
Definition lists_components (f : graph -> list (list node)) : Prop :=
  forall g, proper g ->
    Permutation (concat (f g)) (g_nodes g)
    /\ forall c, In c (f g) -> c <> [] /\ forall a b, In a c -> In b (g_nodes g) -> (In b c <-> joined (g_edges g) a b).

(** The layout of a graph whose longest path [p] ends at [e] is found: a node from
    which [e] cannot be reached comes, in the order of the graph, after one of the
    nodes that lead to it, and after all of them that are not on [p]. *)
Definition found (g : graph) (p : list node) (e : node) : Prop :=
  forall n, In n (g_nodes g) -> ~ leads (g_edges g) n e ->
    (exists a, a <> n /\ leads (g_edges g) a n /\ before a n (g_nodes g))
    /\ (forall a, a <> n -> leads (g_edges g) a n -> In a p \/ before a n (g_nodes g)).

(** The columns of a graph: a node that leads to [e] is as many columns before the last
    of the longest path as it takes edges to reach [e] the longest way; any other is
    just after the last of its predecessors. *)
Definition columns_of (g : graph) (p : list node) (e : node) (cols : list (node * Z)) : Prop :=
  Permutation (map fst cols) (g_nodes g)
  /\ (forall n c, In (n, c) cols -> leads (g_edges g) n e ->
        exists k, farthest (g_edges g) n e k /\ (c = Z.of_nat (length p) - 1 - Z.of_nat k)%Z)
  /\ (forall n c, In (n, c) cols -> ~ leads (g_edges g) n e ->
        (exists m, In (m, n) (g_edges g) /\ In (m, c - 1)%Z cols)
        /\ forall m k, In (m, n) (g_edges g) -> In (m, k) cols -> (k < c)%Z).

(** A node holds a variable: the variable is a port of the block, or the node is the
    variable and no block has it. *)
Definition holds (w : workflow) (n : node) (v : var) : Prop :=
  match n with
  | NBlock i => exists b, nth_error (blocks w) i = Some b /\ (In v (b_in b) \/ In v (b_out b))
  | NVar u => u = v /\ forall b, In b (blocks w) -> ~ In v (b_in b) /\ ~ In v (b_out b)
  end.

(** The same nodes and edges, whatever the order of the nodes. *)
Definition part (g : graph) (c : list node) (h : graph) : Prop :=
  Permutation (g_nodes h) c
  /\ forall a b, In (a, b) (g_edges h) <-> In (a, b) (g_edges g) /\ In a c /\ In b c.

(** Two nodes with a pipe from one to the other. *)
Definition piped (w : workflow) (a b : node) : Prop :=
  exists s t, In (s, t) (pipes w) /\ holds w a s /\ holds w b t.

(** Nothing starts from [n]. *)
Definition last_one (E : list (node * node)) (n : node) : Prop := forall m, ~ In (n, m) E.

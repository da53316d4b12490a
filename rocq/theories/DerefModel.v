(** Model of how pointers are found, ordered and followed when deserialising
    (dessia_common/serialization.py:290-351, 480-673, graph.py:7-12). *)
From Coq Require Import ZArith Bool String Ascii List.
From Verif Require Import Base PyValue PathsModel SerialModel.
Import ListNotations.
Open Scope string_scope.
Open Scope list_scope.

(** isinstance_base_types, utils/types.py:96-101 *)
Definition base_type (v : val) : bool :=
  match v with VNone | VBool _ | VInt _ | VFloat _ | VStr _ => true | _ => false end.

Section Deref.
(** [str(key)], [str(index)], [int(segment)], [segment.isdigit()] *)
Variable str_key : key -> string.
Variable str_nat : nat -> string.
Variable int_of : string -> option Z.
Variable isdigit : string -> bool.

Section Walk.
Variable f : val -> string -> res (list (string * val)).
Fixpoint refs_items (path : string) (d : list (key * val)) : res (list (string * val)) :=
  match d with
  | [] => Ok []
  | (k, x) :: d' =>
    let* a := if base_type x then Ok [] else f x (slash path (str_key k)) in
    let* b := refs_items path d' in Ok (a ++ b)
  end.
Fixpoint refs_elements (path : string) (i : nat) (l : list val) : res (list (string * val)) :=
  match l with
  | [] => Ok []
  | x :: l' => let* a := f x (slash path (str_nat i)) in let* b := refs_elements path (S i) l' in Ok (a ++ b)
  end.
End Walk.
(** find_references, find_references_sequence and find_references_dict, 480-528 (both
    markers are the same string); files are left out *)
Fixpoint find_references (v : val) (path : string) {struct v} : res (list (string * val)) :=
  match v with
  | VDict d => match lookup ref_marker d with
               | Some t => Ok [(path, t)]
               | None => refs_items find_references path d
               end
  | VList l | VTuple l => refs_elements find_references path O l
  | VClass _ _ => Err ValueError
  | _ => Ok []
  end.

(** [reference.split('/')] raises on what is not a string *)
Definition string_of (v : val) : res string := match v with VStr s => Ok s | _ => Err AttributeError end.
Definition references (v : val) : res (list (string * string)) :=
  let* refs := find_references v "#" in
  mapM (fun pt => let* t := string_of (snd pt) in Ok (fst pt, t)) refs.

(** ** pointer_graph, 531-608 *)
(** the nodes along a path, and the edges between them *)
Fixpoint chain (previous : string) (segs : list string) : list string :=
  match segs with [] => [] | s :: r => slash previous s :: chain (slash previous s) r end.
Fixpoint chain_edges (previous : string) (segs : list string) : list (string * string) :=
  match segs with [] => [] | s :: r => (previous, slash previous s) :: chain_edges (slash previous s) r end.
Definition path_nodes (p : string) : list string :=
  match split p with [] => [] | s :: r => s :: chain s r end.
Definition path_edges (p : string) : list (string * string) :=
  match split p with [] => [] | s :: r => chain_edges s r end.

(** [node.replace(old, new)] for [old] not empty *)
Fixpoint replace_from (old new : string) (skip : nat) (s : string) : string :=
  match s with
  | EmptyString => EmptyString
  | String c s' => match skip with
                   | S k => replace_from old new k s'
                   | O => if String.prefix old s then (new ++ replace_from old new (String.length old - 1) s')%string
                          else String c (replace_from old new O s')
                   end
  end.
Definition replace (old new s : string) : string := replace_from old new O s.

(** the loop going up from the target of a pointer, 577-588: the extra edges, and the
    last change of name.  [n] bounds the number of turns. *)
Definition up (node : string) : string := String.concat "/" (removelast (split node)).
Fixpoint climb (n : nat) (refs_by_path : list (string * string)) (path node : string)
         (extra : list (string * string)) (change : option (string * string))
  : res (list (string * string) * option (string * string)) :=
  if String.eqb node "#" then Ok (extra, change) else
  match n with
  | O => Err OutOfFuel
  | S n' => match assoc node refs_by_path with
            | Some t => climb n' refs_by_path path (up node) (extra ++ [(path, t)]) (Some (node, t))
            | None => climb n' refs_by_path path (up node) extra change
            end
  end.
(** 590-599: nodes that are something else, latest first *)
Definition renamed (target : string) (change : option (string * string)) : list (string * string) :=
  match change with
  | None => []
  | Some (old, new) =>
    let segs := split target in
    flat_map (fun i => let node := String.concat "/" (firstn (i + 2) segs) in
                       let new_path := replace old new node in
                       if String.eqb new_path node then [] else [(node, new_path)])
             (seq 0 (length segs - 1))
  end.
Record graph := mkGraph { nodes : list string; edges : list (string * string); equals : list (string * string) }.
Definition pointer_graph (n : nat) (v : val) : res graph :=
  let* refs := references v in
  let refs_by_path := rev refs in
  let* ex := mapM (fun pt => let* ec := climb n refs_by_path (fst pt) (snd pt) [] None in
                             Ok (fst ec, renamed (snd pt) (snd ec))) refs in
  let new_paths := flat_map snd ex in
  Ok (mkGraph (flat_map (fun pt => path_nodes (fst pt) ++ path_nodes (snd pt)) refs)
              (flat_map (fun pt => path_edges (fst pt) ++ path_edges (snd pt)) refs ++ refs
               ++ flat_map fst ex ++ new_paths)
              (rev new_paths)).

(** networkx: the nodes from the leaves, or None when there is a cycle *)
Variable sort : list string -> list (string * string) -> option (list string).

(** deserialization_order, 627-652, and explore_tree_from_leaves, graph.py:7-12.  A node
    that equals another is always added: a string is never among the pairs of the list. *)
Definition deserialization_order (n : nat) (v : val) : res (list (string * option string)) :=
  let* g := pointer_graph n v in
  if memb String.eqb "#" (nodes g) then
    match sort (nodes g) (edges g) with
    | None => Err NotImplementedError
    | Some l => Ok (map (fun node => (node, assoc node (equals g))) (List.filter (fun s => negb (String.eqb s "#")) l))
    end
  else Ok [].

Section Objects.
Variable class_named : string -> res (option val).
Variable find_class : val -> res string.
Variable arguments : string -> list string.
Variable tuple_annotated : string -> string -> bool.
Variable construct : string -> list (key * val) -> res val.
Notation deserialize := (deserialize str_key class_named find_class arguments tuple_annotated construct str_nat).

(** dereference_jsonpointers, 655-673 *)
Definition dereference (n : nat) (v : val) : res (list (string * val)) :=
  let* order := deserialization_order n v in
  foldM (fun memo nr =>
           let* x := match snd nr with
                     | None => let* e := get_in_object_from_path int_of isdigit 1 v (fst nr) false in
                               deserialize memo (fst nr) false e
                     | Some r => of_option KeyError (assoc r memo)
                     end in
           Ok ((fst nr, x) :: memo)) order [].
(** dict_to_object on a whole dictionary, 290-351 *)
Definition dict_to_object (n : nat) (v : val) : res val :=
  let* memo := dereference n v in deserialize memo "#" false v.
End Objects.
End Deref.

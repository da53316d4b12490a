(** Vocabulary of C53 and C54. *)
From Coq Require Import Ascii String ZArith QArith Bool Arith.
From Verif Require Import Base TableModel ExcelModel.
From Verif Require BreakdownModel BreakdownSpec.
From Coq Require Import List Permutation Sorted.
Import ListNotations.
Open Scope list_scope.
Open Scope nat_scope.

(** [w] is somewhere in [s] *)
Definition within (w s : string) : Prop := exists a b, s = (a ++ w ++ b)%string.

(** letters, digits and underscores *)
Definition word_char (c : ascii) : bool :=
  let n := nat_of_ascii c in
  ((48 <=? n) && (n <=? 57)) || ((65 <=? n) && (n <=? 90)) || ((97 <=? n) && (n <=? 122)) || (n =? 95).
Fixpoint word_chars (s : string) : bool :=
  match s with EmptyString => true | String c s' => word_char c && word_chars s' end.
Definition identifier (s : string) : Prop := s <> ""%string /\ word_chars s = true.

(** a text that a workbook gives back: neither empty nor a formula *)
Definition storable (s : string) : Prop :=
  s <> ""%string /\ forall s', s = String "=" s' -> s' = ""%string.

(** A value without identities, the attributes of objects in alphabetical order. *)
Fixpoint canon (v : value) : value :=
  match v with
  | VNone | VBool _ | VInt _ | VFloat _ | VStr _ => v
  | VList l => VList (map canon l)
  | VTuple l => VTuple (map canon l)
  | VSet l => VSet (map canon l)
  | VDict d => VDict (map (fun kx => (fst kx, canon (snd kx))) d)
  | VObj m c _ a => VObj m c 0 (sort_keys (map (fun kx => (fst kx, canon (snd kx))) a))
  end.

Definition id_of (v : value) : nat := match v with VObj _ _ i _ => i | _ => 0 end.
Definition class_of (v : value) : string := match v with VObj _ c _ _ => c | _ => ""%string end.

Definition builtin (x : value) : Prop :=
  match x with VBool _ | VInt _ | VFloat _ | VStr _ => True | _ => False end.

(** Catalogs: the cell of a row under a name, in the last of the columns with this name *)
Definition under (s : sheet) (r : nat) (k : string) (c : option cell) : Prop :=
  match c with
  | Some cl => exists col, 1 <= col /\ cl = cell_at s r col /\ content (cell_at s 2 col) = CText k
                 /\ forall col', col < col' -> content (cell_at s 2 col') <> CText k
  | None => forall col, 1 <= col -> content (cell_at s 2 col) <> CText k
  end.

(** [o] was made of a row: each parameter gets what is under its name, or its default value. *)
Definition made (literal : string -> option value) (params : list (string * option value)) (s : sheet) (r : nat)
    (m c : string) (o : value) : Prop :=
  exists a, o = VObj m c 0 a
  /\ (forall k d, get k params = Some d ->
      exists cl x, under s r k cl
        /\ match cl with
           | Some cl => x = match content cl with
                            | CText t => match literal t with Some w => w | None => VStr t end
                            | sc => scalar_value sc
                            end
           | None => d = Some x
           end
        /\ get k a = Some (if String.eqb k "name" && falsy x then VStr "" else x))
  /\ (get "name" params = None -> get "name" a = Some (VStr "")).

(** [at_path v r x]: following the keys [r] from [v] one gets to [x]: positions in lists, tuples and
    sets, keys of dictionaries, attributes whose name does not begin with an underscore *)
Inductive at_path : value -> list string -> value -> Prop :=
| at_here v : at_path v [] v
| at_list l n x r y : nth_error l n = Some x -> at_path x r y -> at_path (VList l) (nat_str n :: r) y
| at_tuple l n x r y : nth_error l n = Some x -> at_path x r y -> at_path (VTuple l) (nat_str n :: r) y
| at_set l n x r y : nth_error l n = Some x -> at_path x r y -> at_path (VSet l) (nat_str n :: r) y
| at_key d k x r y : In (k, x) d -> at_path x r y -> at_path (VDict d) (k :: r) y
| at_attribute m c i a k x r y : In (k, x) a -> (forall k', k <> String "_" k') -> at_path x r y ->
    at_path (VObj m c i a) (k :: r) y.

Section Spec.
Variable same : nat -> nat -> bool.
Variable pystr : value -> string.
Variable literal : string -> option value.
Variable round6 : Q -> Q.
Variable classes : string -> res (list (string * option value)).

(** The classes of the objects in a value and the objects of a class, in the order in which a
    breakdown visits them (C40_order). *)
Definition visited (v : value) : list (string * nat * string) := BreakdownSpec.visits "" (seen v).
Definition classes_of (v : value) : list string := dedup String.eqb [] (map (fun w => fst (fst w)) (visited v)).
Definition members (v : value) (c : string) : list nat :=
  dedup same [] (map (fun w => snd (fst w)) (filter (fun w => String.eqb (fst (fst w)) c) (visited v))).

(** Objects python can hold: an identity is that of one object, and equal objects have the
    same class. *)
Definition sound (v : value) : Prop :=
  (forall x y, In x (objects v) -> In y (objects v) -> id_of x = id_of y -> x = y)
  /\ (forall x y, In x (objects v) -> In y (objects v) -> same (id_of x) (id_of y) = true -> class_of x = class_of y).

(** Attributes of an object have different names, none of them empty. *)
Definition well_named (v : value) : Prop :=
  forall x, In x (objects v) -> NoDup (map fst (dict_of x)) /\ ~ In ""%string (map fst (dict_of x)).

(** What a cell shows of a value: its content and its link, the title of a sheet and a row.  For
    an object it is a path to an object equal to it, and the link leads to the row of the member
    of its class that is equal to it. *)
Inductive shown (v : value) : value -> scalar -> option (string * nat) -> Prop :=
| shown_text s : shown v (VStr s) (CText s) None
| shown_float q : shown v (VFloat q) (CNum (round6 q)) None
| shown_plain x :
    match x with VNone | VBool _ | VInt _ | VTuple _ => True | _ => False end ->
    shown v x (CText (pystr x)) None
| shown_values l : Forall builtin l -> shown v (VList l) (CText (pystr (VList l))) None
| shown_list x l : ~ Forall builtin (x :: l) ->
    shown v (VList (x :: l)) (CText ("List of " ++ nat_str (S (List.length l)) ++ " items")) (Some (type_name x, 2))
| shown_empty_dict : shown v (VDict []) (CText "Dict of 0 items") None
| shown_dict k x d :
    shown v (VDict ((k, x) :: d)) (CText ("Dict of " ++ nat_str (S (List.length d)) ++ " items")) (Some (type_name x, 2))
| shown_set l : Forall builtin l ->
    shown v (VSet l) (CText ("Set of " ++ nat_str (List.length l) ++ " items")) None
| shown_object m c i a n j o path :
    nth_error (members v c) n = Some j -> same j i = true ->
    In (c, o, path) (visited v) -> same o i = true ->
    shown v (VObj m c i a) (CText path) (Some (c, 4 + n)).

(** the name of an object, in the second column *)
Definition shown_name (a : list (string * value)) (sc : scalar) : Prop :=
  match get "name" a with
  | None => sc = CText "No name in model"
  | Some VNone => sc = CNone
  | Some (VBool b) => sc = CBool b
  | Some (VInt z) => sc = CInt z
  | Some (VFloat q) => sc = CNum q
  | Some (VStr s) => sc = CText s
  | Some _ => False
  end.

(** the cell at a row and a column of a saved sheet *)
Definition cell_is (s : sheet) (row column : nat) (sc : scalar) (l : option (string * nat)) : Prop :=
  cell_at s row column = {| content := stored_scalar sc; link := l |}.

(** the attributes that are shown: neither the name nor those whose name begins with an underscore *)
Definition shown_keys (a : list (string * value)) : list string :=
  map fst (filter (fun kx => negb (String.prefix "_" (fst kx)) && negb (String.eqb (fst kx) "name")) a).

(** A sheet with the objects [objs], with their paths: the identity of the class on the second
    row, names of attributes in alphabetical order on the third row, then a row for each. *)
Definition describes (v : value) (s : sheet) (m c : string) (objs : list (value * (string -> Prop))) : Prop :=
  cell_is s 2 1 (CText m) None /\ cell_is s 2 2 (CText c) None
  /\ height s = 3 + List.length objs
  /\ cell_is s 3 1 (CText "Path") None /\ cell_is s 3 2 (CText "name") None
  /\ exists keys, StronglySorted (fun k k' => String.leb k k' = true) keys
     /\ (exists x P, In (x, P) objs /\ Permutation keys (shown_keys (dict_of x)))
     /\ (forall n key, nth_error keys n = Some key -> cell_is s 3 (3 + n) (CText key) None)
     /\ forall n x P, nth_error objs n = Some (x, P) ->
          (exists path, P path /\ cell_is s (4 + n) 1 (CText path) None)
          /\ (exists sc, shown_name (dict_of x) sc /\ cell_is s (4 + n) 2 sc None)
          /\ (Permutation keys (shown_keys (dict_of x)) ->
              forall n' key z, nth_error keys n' = Some key -> In (key, z) (dict_of x) ->
                exists sc l, shown v z sc l /\ cell_is s (4 + n) (3 + n') sc l).

(** Objects that can be written. *)
Definition exportable (a : list (string * value)) : Prop :=
  match get "name" a with
  | Some (VList _ | VTuple _ | VSet _ | VDict _ | VObj _ _ _ _) => False
  | _ => True
  end
  /\ forall k l, In (k, VSet l) a -> (forall k', k <> String "_" k') -> k <> "name"%string -> Forall builtin l.

(** What a cell gives back. *)
Inductive kept : value -> Prop :=
| kept_text s : storable s -> literal s = None -> kept (VStr s)
| kept_float q : round6 q = q -> kept (VFloat q)
| kept_literal v :
    match v with
    | VNone | VBool _ | VInt _ | VTuple _ => True
    | VList l => is_builtins_list l = true
    | _ => False
    end -> storable (pystr v) -> literal (pystr v) = Some v -> kept v.

(** a name that a cell gives back *)
Definition kept_name (a : list (string * value)) : Prop :=
  exists s, In ("name"%string, VStr s) a /\ (s = ""%string \/ kept (VStr s)).

(** An object whose attributes are the parameters of its [__init__]. *)
Definition plain_class (x : value) : Prop :=
  match x with
  | VObj m c _ a =>
    (exists params, classes (m ++ "." ++ c)%string = Ok params
       /\ Permutation (map fst a) (map fst params))
    /\ NoDup (map fst a) /\ kept_name a
    /\ (forall k, In k (map fst a) -> identifier k /\ forall k', k <> String "_" k')
    /\ identifier c /\ storable m
  | _ => False
  end.

(** What a row that is read alone gives back, when the sheets of the classes [after] were read:
    the first object of a class, and the list of the objects of a class. *)
Inductive alone (v : value) (after : list string) : value -> Prop :=
| alone_kept x : kept x -> alone v after x
| alone_object m c i a j rest :
    In c after -> members v c = j :: rest -> same j i = true ->
    (forall c' o p w, In (c', o, p) (visited v) -> same o i = true ->
       In w ["Dict"; "List"; "Set"; "Tuple"]%string -> ~ within w p) ->
    alone v after (VObj m c i a)
| alone_list c l :
    In c after -> l <> [] ->
    Forall2 (fun x j => exists m i a, x = VObj m c i a /\ same j i = true) l (members v c) ->
    alone v after (VList l).

(** What a row among others gives back: objects that have no objects. *)
Inductive among (v : value) : value -> Prop :=
| among_kept x : kept x -> among v x
| among_object m c i a :
    (forall y k z, In y (objects v) -> same (id_of y) i = true -> In (k, z) (dict_of y) -> k <> "name"%string -> kept z) ->
    among v (VObj m c i a).

Definition attributes_are (P : value -> Prop) (x : value) : Prop :=
  forall k z, In (k, z) (dict_of x) -> k <> "name"%string -> P z.

(** Objects that the exchange by a workbook gives back. *)
Definition exchangeable (v : value) : Prop :=
  sound v
  /\ (forall x y, In x (objects v) -> In y (objects v) -> same (id_of x) (id_of y) = true -> canon x = canon y)
  /\ (forall m m' c i i' a a', In (VObj m c i a) (objects v) -> In (VObj m' c i' a') (objects v) -> m = m')
  /\ (forall x, In x (objects v) -> plain_class x)
  /\ attributes_are (alone v (classes_of v)) v
  /\ (forall before c after, classes_of v = before ++ c :: after ->
      forall x, In x (objects v) -> class_of x = c -> In (id_of x) (members v c) ->
        match members v c with
        | [_] => attributes_are (alone v after) x
        | _ => attributes_are (among v) x
        end).
End Spec.

(** Model of serialisation with pointers (dessia_common/serialization.py:50-66, 127-256). *)
From Coq Require Import ZArith Bool String Ascii List.
From Verif Require Import Base PyValue PathsModel SerialModel.
Import ListNotations.
Open Scope string_scope.
Open Scope list_scope.

(** Serialised values while they are built.  The dictionary an object is serialised to is
    known by the tree and by the memo alike and is changed in place: [JCell i] is the
    i-th such dictionary, whose content is kept apart.  Lists and other dictionaries have
    a single owner. *)
Inductive jval :=
| JLeaf (v : val)
| JList (l : list jval)
| JDict (d : list (key * jval))
| JCell (i : nat).

(** Entries of the memo, in insertion order: the object, the number of its dictionary
    (which stands for its uuid), the path it was found at. *)
Record entry := mkEntry { e_key : val; e_id : nat; e_path : list string }.
Record pstate := mkState { memo : list entry; cells : list (list (key * jval)); id_memo : list nat }.

Definition add_id (i : nat) (st : pstate) : pstate :=
  mkState (memo st) (cells st) (if memb Nat.eqb i (id_memo st) then id_memo st else id_memo st ++ [i]).

Section Pointers.
Variable non_serializable : string -> list string.
Variable jsonable : val -> bool.
Variable annotation_of_class : string -> string.
(** _standalone_in_db, by full class name *)
Variable standalone : string -> bool.
(** [str(key)], [str(index)], [str(uuid.uuid1())] *)
Variable str_key : key -> string.
Variable str_nat : nat -> string.
Variable id_name : nat -> string.
(** [stored == value] together with their hashes, as a dictionary compares keys *)
Variable same : val -> val -> bool.
(** [int(segment)] and [segment.isdigit()] *)
Variable int_of : string -> option Z.
Variable isdigit : string -> bool.

Definition path_string (p : list string) : string := fold_left slash p "#".
Definition path_to_refs (i : nat) : string := path_string ["_references"; id_name i].
Definition reference (i : nat) : jval := JDict [(KStr "$ref", JLeaf (VStr (path_to_refs i)))].

(** [memo[value] = ...]: the key already there is kept *)
Fixpoint set_memo (v : val) (i : nat) (p : list string) (m : list entry) : list entry :=
  match m with
  | [] => [mkEntry v i p]
  | e :: m' => if same (e_key e) v then mkEntry (e_key e) i p :: m' else e :: set_memo v i p m'
  end.

Section Walk.
Variable f : val -> list string -> pstate -> res (jval * pstate).
Fixpoint ser_items (keep : key -> val -> bool) (path : list string) (d : list (key * val)) (st : pstate) : res (list (key * jval) * pstate) :=
  match d with
  | [] => Ok ([], st)
  | (k, x) :: d' =>
    if keep k x then
      let* r := f x (path ++ [str_key k]) st in
      let* rs := ser_items keep path d' (snd r) in
      Ok ((k, fst r) :: fst rs, snd rs)
    else ser_items keep path d' st
  end.
Fixpoint ser_elements (path : list string) (n : nat) (l : list val) (st : pstate) : res (list jval * pstate) :=
  match l with
  | [] => Ok ([], st)
  | x :: l' =>
    let* r := f x (path ++ [str_nat n]) st in
    let* rs := ser_elements path (S n) l' (snd r) in
    Ok (fst r :: fst rs, snd rs)
  end.
(** serialize_dict_with_pointers, serialization.py:193-234: neither sequences nor
    dictionaries first, then sequences, then dictionaries *)
Definition ser_dict (keep : key -> bool) (path : list string) (d : list (key * val)) (st : pstate) : res (list (key * jval) * pstate) :=
  let is_dict x := match x with VDict _ => true | _ => false end in
  let is_seq x := match x with VList _ | VTuple _ => true | _ => false end in
  let* a := ser_items (fun k x => keep k && (negb (is_dict x) && negb (is_seq x))) path d st in
  let* b := ser_items (fun k x => keep k && is_seq x) path d (snd a) in
  let* c := ser_items (fun k x => keep k && is_dict x) path d (snd b) in
  Ok (fst a ++ fst b ++ fst c, snd c).
End Walk.

Definition base_items (c : string) (d : list (key * val)) : res (list (key * jval)) :=
  let* name := of_option AttributeError (lookup (KStr "name") d) in
  Ok [(KStr "object_class", JLeaf (VStr c)); (KStr "name", JLeaf name)].

(** serialize_with_pointers, serialization.py:156-190, below the top level, with the
    default id_method, _find_in_memo 127-131 and _serialize_and_set_in_memo 134-153 *)
Fixpoint ser (v : val) (path : list string) (st : pstate) {struct v} : res (jval * pstate) :=
  match v with
  | VClass n _ => Ok (JLeaf (VStr (annotation_of_class n)), st)
  | VObj c d =>
    match List.find (fun e => same (e_key e) v) (memo st) with
    | Some e => Ok (reference (e_id e), add_id (e_id e) st)
    | None =>
      let* base := base_items c d in
      let* r := ser_dict ser (fun k => negb (key_within k (non_serializable c)) && negb (is_private k)) path d st in
      let st1 := snd r in
      let i := length (cells st1) in
      let st2 := mkState (set_memo v i path (memo st1)) (cells st1 ++ [update base (fst r)]) (id_memo st1) in
      if standalone c then Ok (reference i, add_id i st2) else Ok (JCell i, st2)
    end
  | VDict d => let* r := ser_dict ser (fun _ => true) path d st in Ok (JDict (fst r), snd r)
  | VList l | VTuple l => let* r := ser_elements ser path O l st in Ok (JList (fst r), snd r)
  | _ => if jsonable v then Ok (JLeaf v, st) else Err SerializationError
  end.

(** ** Paths in what is being built *)
Inductive holder := Root | Cell (i : nat).
Definition heap := (jval * list (list (key * jval)))%type.
Definition content (h : heap) (o : holder) : jval :=
  match o with Root => fst h | Cell i => JDict (nth i (snd h) []) end.

(** extract_segment_from_object, utils/helpers.py:110-145, on serialised values *)
Definition jfind (j : jval) (s : string) : res (step * jval) :=
  match j with
  | JList l =>
    match int_of s with
    | None => Err ExtractionError
    | Some z => match py_index (length l) z with
                | Some i => let* w := of_option IndexError (nth_error l i) in Ok (Idx i, w)
                | None => Err IndexError
                end
    end
  | JDict d =>
    match lookup (KStr s) d with
    | Some w => Ok (Item (KStr s), w)
    | None =>
      if isdigit s then
        match int_of s with
        | None => Err ValueError
        | Some z => let* w := of_option ExtractionError (lookup (KInt z) d) in Ok (Item (KInt z), w)
        end
      else if tuple_like s then Err KeyError else Err ExtractionError
    end
  | _ => Err AttributeError
  end.

(** where we are: owner, steps inside it, what is there *)
Definition place := (holder * list step * jval)%type.
Definition enter (h : heap) (p : place) : place :=
  match snd p with JCell i => (Cell i, [], JDict (nth i (snd h) [])) | _ => p end.

(** get_in_object_from_path, utils/helpers.py:148-174, evaluating pointers *)
Fixpoint jget (n : nat) (h : heap) (segs : list string) : res place :=
  match n with
  | O => Err RecursionError
  | S n' =>
    foldM (fun p s =>
             let p1 := enter h p in
             let* p2 := match snd p1 with
                        | JDict d => match lookup (KStr "$ref") d with
                                     | None => Ok p1
                                     | Some (JLeaf (VStr t)) => let* q := jget n' h (segments t) in Ok (enter h q)
                                     | Some _ => Err AttributeError
                                     end
                        | _ => Ok p1
                        end in
             let* sw := jfind (snd p2) s in
             Ok (fst (fst p2), snd (fst p2) ++ [fst sw], snd sw)) segs (Root, [], fst h)
  end.

(** the value with another part at a location *)
Definition jput (v : jval) (st : step) (x : jval) : jval :=
  match v, st with
  | JList l, Idx i => JList (update_nth i x l)
  | JDict d, Item k => JDict (set_key k x d)
  | _, _ => v
  end.
Definition jchild (v : jval) (st : step) : option jval :=
  match v, st with
  | JList l, Idx i => nth_error l i
  | JDict d, Item k => lookup k d
  | _, _ => None
  end.
Fixpoint jput_at (v : jval) (loc : list step) (x : jval) : jval :=
  match loc with
  | [] => x
  | st :: loc' => match jchild v st with Some w => jput v st (jput_at w loc' x) | None => v end
  end.
Definition jwrite (j : jval) (s : string) (x : jval) : res jval :=
  match j with
  | JList l => match int_of s with
               | None => Err ValueError
               | Some z => match py_index (length l) z with
                           | Some i => Ok (JList (update_nth i x l))
                           | None => Err IndexError
                           end
               end
  | JDict d => Ok (JDict (set_key (KStr s) x d))
  | _ => Err AttributeError
  end.
Definition store (h : heap) (o : holder) (j : jval) : heap :=
  match o with
  | Root => (j, snd h)
  | Cell i => (fst h, match j with JDict d => update_nth i d (snd h) | _ => snd h end)
  end.

(** set_in_object_from_path, utils/helpers.py:179-193, with the pointers evaluated *)
Definition jset (n : nat) (h : heap) (path : string) (x : jval) : res heap :=
  let reduced_path := String.concat "/" (removelast (segments path)) in
  let last_segment := last (PathsModel.split path) "" in
  let* p := if String.eqb reduced_path "" then Ok (Root, [], fst h) else jget n h (segments reduced_path) in
  let p1 := enter h p in
  let* w := jwrite (snd p1) last_segment x in
  Ok (store h (fst (fst p1)) (jput_at (content h (fst (fst p1))) (snd (fst p1)) w)).

(** add_references, serialization.py:237-245 *)
Definition add_references (n : nat) (root : list (key * jval)) (st : pstate) : res heap :=
  let refs := JDict (map (fun i => (KStr (id_name i), JCell i)) (id_memo st)) in
  foldM (fun h e =>
           if negb (String.prefix "#/_references" (path_string (e_path e))) && memb Nat.eqb (e_id e) (id_memo st) then
             if has_key (KStr "$ref") (nth (e_id e) (snd h) []) then Ok h
             else jset n h (path_string (e_path e)) (reference (e_id e))
           else Ok h) (memo st) (JDict (set_key (KStr "_references") refs root), cells st).

(** What is finally read in the dictionary, by json for instance. *)
Section Dump.
Variable cell : nat -> res val.
Fixpoint dump_with (j : jval) : res val :=
  match j with
  | JLeaf v => Ok v
  | JCell i => cell i
  | JList l => let* r := (fix go l := match l with
                                      | [] => Ok []
                                      | x :: l' => let* y := dump_with x in let* r := go l' in Ok (y :: r)
                                      end) l in Ok (VList r)
  | JDict d => let* r := (fix go d := match d with
                                      | [] => Ok []
                                      | (k, x) :: d' => let* y := dump_with x in let* r := go d' in Ok ((k, y) :: r)
                                      end) d in Ok (VDict r)
  end.
End Dump.
Fixpoint dump (n : nat) (cs : list (list (key * jval))) (j : jval) : res val :=
  match n with
  | O => Err OutOfFuel
  | S n' => dump_with (fun i => dump n' cs (JDict (nth i cs []))) j
  end.

(** SerializableObject.to_dict with pointers, serialization.py:50-64; [n] bounds the
    nested references followed when rewriting. *)
Definition to_dict (n : nat) (c : string) (d : list (key * val)) : res val :=
  let* base := base_items c d in
  let* r := ser_dict ser (fun k => negb (key_within k (non_serializable c)) && negb (is_private k)) [] d (mkState [] [] []) in
  let* h := add_references n (fst r) (snd r) in
  match fst h with
  | JDict root => dump (S (length (snd h))) (snd h) (JDict (update base root))
  | _ => Err RuntimeError
  end.
End Pointers.

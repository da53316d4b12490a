(** Vocabulary for pointers in serialised values. *)
From Coq Require Import ZArith Bool String Ascii Relations List.
From Verif Require Import Base PyValue PathsSpec.
Import ListNotations.
Open Scope string_scope.
Open Scope list_scope.

Section Deref.
Variable str_key : key -> string.
Variable str_nat : nat -> string.

(** the path going through these segments *)
Definition full (segs : list string) : string := fold_left (fun p s => (p ++ "/" ++ s)%string) segs "#".

(** [part v segs x]: [x] is inside [v], going through these segments, not inside a pointer. *)
Inductive part : val -> list string -> val -> Prop :=
| pa_here v : part v [] v
| pa_key d k y segs x : ~ In (KStr "$ref") (map fst d) -> In (k, y) d -> part y segs x -> part (VDict d) (str_key k :: segs) x
| pa_elt v l i y segs x : seq_of v = Some l -> nth_error l i = Some y -> part y segs x -> part v (str_nat i :: segs) x.
(** [pointer v p t]: at path [p] there is a pointer to [t]. *)
Definition pointer (v : val) (p : string) (t : string) : Prop :=
  exists segs d, part v segs (VDict d) /\ In (KStr "$ref", VStr t) d /\ p = full segs.

(** [n] is the path [q] or one of its ancestors *)
Definition within (n q : string) : Prop := n = q \/ exists r, q = (n ++ "/" ++ r)%string.
Definition child_of (a b : string) : Prop := exists s, no_slash s /\ b = (a ++ "/" ++ s)%string.
(** paths on the way to a pointer or to its target *)
Definition mentioned (v : val) (n : string) : Prop := exists p t, pointer v p t /\ (within n p \/ within n t).
(** what is needed before: the target of a pointer, what is inside a container *)
Definition depends (v : val) (a b : string) : Prop := pointer v a b \/ child_of a b /\ mentioned v b.

(** Serialised values: no class inside, the targets of pointers are strings. *)
Definition pointers_ok (v : val) : Prop :=
  everywhere (fun w => (forall n b, w <> VClass n b) /\ (forall d t, w = VDict d -> In (KStr "$ref", t) d -> exists s, t = VStr s)) v.
(** The targets are paths from the root. *)
Definition rooted (v : val) : Prop := forall p t, pointer v p t -> within "#" t.
(** No pointer designates a pointer or something inside a pointer. *)
Definition direct (v : val) : Prop := forall p t p' t', pointer v p t -> pointer v p' t' -> ~ within p' t.
End Deref.

(** ** What a serialised value describes *)
Section Describes.
Variable str_key : key -> string.
Variable str_nat : nat -> string.
Variable class_named : string -> res (option val).
Variable find_class : val -> res string.
Variable arguments : string -> list string.
Variable tuple_annotated : string -> string -> bool.
Variable construct : string -> list (key * val) -> res val.
Variable root : val.

Definition argument (c : string) (k : key) : Prop := In k (map KStr (arguments c)).
Definition annotated (c : string) (k : key) : bool := match k with KStr s => tuple_annotated c s | _ => false end.

(** [describes p a x u]: in the document [root], [x], which is at path [p], describes the
    python value [u]: pointers are replaced by what their targets describe, dictionaries
    with a class by an instance.  Sequences are lists, except where an argument is
    annotated as a tuple ([a]) and no pointer goes there or starts from there. *)
Inductive describes : list string -> bool -> val -> val -> Prop :=
| de_leaf p a x : seq_of x = None -> (forall d, x <> VDict d) -> (forall s, x <> VStr s) -> describes p a x x
| de_str p a s t : class_named s = Ok t -> describes p a (VStr s) (match t with Some c => c | None => VStr s end)
| de_list p a x l l' : seq_of x = Some l -> length l = length l' -> a = false \/ mentioned str_key str_nat root (full p) ->
    (forall i y z, nth_error l i = Some y -> nth_error l' i = Some z -> describes (p ++ [str_nat i]) false y z) ->
    describes p a x (VList l')
| de_tuple p x l l' : seq_of x = Some l -> length l = length l' -> ~ mentioned str_key str_nat root (full p) ->
    (forall i y z, nth_error l i = Some y -> nth_error l' i = Some z -> describes (p ++ [str_nat i]) false y z) ->
    describes p true x (VTuple l')
| de_dict p a d d' : ~ In (KStr "$ref") (map fst d) -> ~ In (KStr "object_class") (map fst d) -> map fst d' = map fst d ->
    (forall k y z, In (k, y) d -> In (k, z) d' -> describes (p ++ [str_key k]) false y z) -> describes p a (VDict d) (VDict d')
| de_obj p a d cn c kw u : ~ In (KStr "$ref") (map fst d) -> In (KStr "object_class", cn) d -> find_class cn = Ok c ->
    map fst kw = List.filter (fun k => existsb (key_eqb k) (map KStr (arguments c))) (map fst d) ->
    (forall k y z, In (k, y) d -> In (k, z) kw -> describes (p ++ [str_key k]) (annotated c k) y z) ->
    construct c kw = Ok u -> describes p a (VDict d) u
| de_ref p a d q x u : In (KStr "$ref", VStr (full q)) d -> part str_key str_nat root q x -> describes q false x u ->
    describes p a (VDict d) u.
End Describes.

(** Keys, but for those beside the marker of a pointer, are strings without '/'; at the top
    level they are not empty and do not start with '#'. *)
Definition named_keys (str_key : key -> string) (str_nat : nat -> string) (root : val) : Prop :=
  (forall q d k, part str_key str_nat root q (VDict d) -> ~ In (KStr "$ref") (map fst d) -> In k (map fst d) -> exists s, k = KStr s /\ no_slash s)
  /\ exists d, root = VDict d /\ forall s, In (KStr s) (map fst d) -> exists c r, s = String c r /\ c <> "#"%char /\ c <> "/"%char.

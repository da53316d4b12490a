(** Vocabulary for serialisation without pointers. *)
From Coq Require Import ZArith Bool String Ascii List.
From Verif Require Import Base PyValue.
Import ListNotations.
Open Scope string_scope.
Open Scope list_scope.

(** Attributes whose name starts with an underscore. *)
Definition underscored (k : key) : Prop := exists s, k = KStr (String "_" s).

(** Values json has a notation for, dictionary keys apart. *)
Inductive json : val -> Prop :=
| js_none : json VNone
| js_bool b : json (VBool b)
| js_int z : json (VInt z)
| js_float f : json (VFloat f)
| js_str s : json (VStr s)
| js_list l : Forall json l -> json (VList l)
| js_dict d : NoDup (map fst d) -> Forall (fun kv => json (snd kv)) d -> json (VDict d).

Section Serial.
Variable non_serializable : string -> list string.
Variable jsonable : val -> bool.
Variable annotation_of_class : string -> string.
Variable class_named : string -> res (option val).
Variable find_class : val -> res string.
Variable arguments : string -> list string.
Variable tuple_annotated : string -> string -> bool.
Variable construct : string -> list (key * val) -> res val.

(** the attributes serialised *)
Definition serialised (c : string) (k : key) : Prop :=
  ~ In k (map KStr (non_serializable c)) /\ ~ underscored k.

(** What a value becomes once serialised and deserialised, where the boolean says that a
    tuple is expected: sequences become lists (tuples when expected), dictionaries keep
    their keys in order, objects keep their class and every serialised attribute that is
    an argument of the constructor. *)
Inductive restored : bool -> val -> val -> Prop :=
| rs_none a : restored a VNone VNone
| rs_bool a b : restored a (VBool b) (VBool b)
| rs_int a z : restored a (VInt z) (VInt z)
| rs_float a f : restored a (VFloat f) (VFloat f)
| rs_str a s : restored a (VStr s) (VStr s)
| rs_class a n b : restored a (VClass n b) (VClass n b)
| rs_seq a v l l' : seq_of v = Some l -> Forall2 (restored false) l l' -> restored a v (if a then VTuple l' else VList l')
| rs_dict a d d' : Forall2 (fun kx ky => fst kx = fst ky /\ restored false (snd kx) (snd ky)) d d' ->
    restored a (VDict d) (VDict d')
| rs_obj a c d d' : NoDup (map fst d') ->
    (forall s x, In (KStr s, x) d -> serialised c (KStr s) -> In s (arguments c) ->
       exists y, In (KStr s, y) d' /\ restored (tuple_annotated c s) x y) ->
    restored a (VObj c d) (VObj c d').

(** The class can be called with the serialised attributes that are arguments, and keeps
    them as attributes. *)
Definition rebuilds (c : string) (d : list (key * val)) : Prop :=
  forall kw, NoDup (map fst kw) ->
    (forall s, In (KStr s) (map fst kw) <-> In s (arguments c) /\ (s = "name" \/ serialised c (KStr s) /\ In (KStr s) (map fst d))) ->
    exists d', construct c kw = Ok (VObj c d') /\ NoDup (map fst d') /\ forall k x, In (k, x) kw -> In (k, x) d'.

(** What can be serialised and brought back. *)
Definition portable_here (v : val) : Prop :=
  match v with
  | VStr s => class_named s = Ok None
  | VClass n b => class_named (annotation_of_class n) = Ok (Some (VClass n b))
  | VDict d => ~ In (KStr "$ref") (map fst d) /\ ~ In (KStr "object_class") (map fst d)
  | VObj c d =>
    find_class (VStr c) = Ok c
    /\ ~ In (KStr "$ref") (map fst d) /\ ~ In (KStr "object_class") (map fst d) /\ ~ In "object_class" (arguments c)
    /\ (exists s, In (KStr "name", VStr s) d) /\ rebuilds c d
  | _ => True
  end.
Definition portable (v : val) : Prop := everywhere portable_here v.

(** What serialisation accepts: json numbers and strings, objects with a name. *)
Definition acceptable_here (v : val) : Prop :=
  match v with
  | VObj _ d => In (KStr "name") (map fst d)
  | VNone | VBool _ | VInt _ | VFloat _ | VStr _ => jsonable v = true
  | _ => True
  end.
End Serial.

(** Vocabulary for serialisation with pointers. *)
From Coq Require Import ZArith Bool String Ascii List.
From Verif Require Import Base PyValue PathsSpec SerialSpec.
Import ListNotations.
Open Scope string_scope.
Open Scope list_scope.

Definition leaf (v : val) : Prop :=
  match v with VNone | VBool _ | VInt _ | VFloat _ | VStr _ => True | _ => False end.

(** Serialised values that say the same thing, whatever the order of keys. *)
Inductive alike : val -> val -> Prop :=
| al_leaf v : leaf v -> alike v v
| al_list l m : Forall2 alike l m -> alike (VList l) (VList m)
| al_dict d e : (forall k, In k (map fst d) <-> In k (map fst e)) ->
    (forall k x y, In (k, x) d -> In (k, y) e -> alike x y) -> alike (VDict d) (VDict e).

Definition pointer_to (id : string) : string := ("#/_references/" ++ id)%string.

(** [denotes refs w s]: replacing, in [w], every pointer by what it designates in [refs],
    as often as necessary, gives [s], whatever the order of keys. *)
Inductive denotes (refs : list (key * val)) : val -> val -> Prop :=
| dn_leaf v : leaf v -> denotes refs v v
| dn_list l m : Forall2 (denotes refs) l m -> denotes refs (VList l) (VList m)
| dn_dict d e : NoDup (map fst d) -> ~ In (KStr "$ref") (map fst d) -> (forall k, In k (map fst d) <-> In k (map fst e)) ->
    (forall k x y, In (k, x) d -> In (k, y) e -> denotes refs x y) -> denotes refs (VDict d) (VDict e)
| dn_ref d id x s : NoDup (map fst d) -> In (KStr "$ref", VStr (pointer_to id)) d -> In (KStr id, x) refs -> denotes refs x s ->
    denotes refs (VDict d) s.

(** Every pointer designates an entry of [refs]. *)
Definition no_dangling (refs : list (key * val)) (w : val) : Prop :=
  everywhere (fun v => forall d t, v = VDict d -> In (KStr "$ref", t) d ->
                exists id, t = VStr (pointer_to id) /\ In (KStr id) (map fst refs)) w.

(** Keys are strings without '/', other than '$ref', and attributes other than 'object_class'. *)
Definition good_name (s : string) : Prop := no_slash s /\ s <> "$ref".
Definition good_keys_here (v : val) : Prop :=
  match v with
  | VDict d => forall k, In k (map fst d) -> exists s, k = KStr s /\ good_name s
  | VObj _ d => (forall k, In k (map fst d) -> exists s, k = KStr s /\ good_name s /\ s <> "object_class")
                /\ exists n, In (KStr "name", VStr n) d
  | _ => True
  end.
Definition good_keys (v : val) : Prop := everywhere good_keys_here v.
(** Names of attributes of the object serialised: not empty, not starting with '#'. *)
Definition attribute_name (s : string) : Prop := exists c r, s = String c r /\ c <> "#"%char /\ c <> "/"%char.

Section Occurs.
Variable non_serializable : string -> list string.
(** [occurs x v]: [x] is a part of [v] that gets serialised. *)
Inductive occurs (x : val) : val -> Prop :=
| oc_here : occurs x x
| oc_seq v l y : seq_of v = Some l -> In y l -> occurs x y -> occurs x v
| oc_dict d k y : In (k, y) d -> occurs x y -> occurs x (VDict d)
| oc_obj c d k y : In (k, y) d -> serialised non_serializable c k -> occurs x y -> occurs x (VObj c d).
End Occurs.

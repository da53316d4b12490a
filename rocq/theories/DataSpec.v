(** Vocabulary for data equality, hash and diff. *)
From Coq Require Import ZArith QArith Qabs Bool String Ascii List.
From Verif Require Import Base PyValue.
Import ListNotations.
Open Scope string_scope.
Open Scope list_scope.

Definition not_float (v : val) : Prop := forall f, v <> VFloat f.
Definition not_class (v : val) : Prop := forall n b, v <> VClass n b.
Definition not_nan (v : val) : Prop := v <> VFloat NaN.
Definition float_free (v : val) : Prop := everywhere not_float v.
Definition class_free (v : val) : Prop := everywhere not_class v.
Definition nan_free (v : val) : Prop := everywhere not_nan v.

(** Two floats within tolerance: equal infinities, or finite at a distance of at most
    1e-9 times the larger of 1 and their magnitudes. *)
Definition close (a b : pyfloat) : Prop :=
  match a, b with
  | Fin x, Fin y => exists m, (m == 1 \/ m == Qabs x \/ m == Qabs y)%Q /\ (Qabs (x - y) * 1000000000 <= m)%Q
  | PInf, PInf => True
  | NInf, NInf => True
  | _, _ => False
  end.

(** Booleans are the integers 0 and 1. *)
Definition number (v : val) : option Z :=
  match v with VBool b => Some (Z.b2z b) | VInt z => Some z | _ => None end.

Section Classes.
Variable non_serializable non_data_eq non_data_hash : string -> list string.

(** Attribute [k] of an object of class [c] counts in data equality. *)
Definition counts (c : string) (k : key) : Prop :=
  (forall s, k <> KStr (String "_" s))
  /\ (forall s, In s (non_serializable c) -> k <> KStr s)
  /\ (forall s, In s (non_data_eq c) -> k <> KStr s)
  /\ k <> KStr "name" /\ k <> KStr "package_version".
(** and in the hash *)
Definition counts_in_hash (c : string) (k : key) : Prop :=
  counts c k /\ forall s, In s (non_data_hash c) -> k <> KStr s.

(** [agrees v w]: everything [v] says, [w] says too. *)
Inductive agrees : val -> val -> Prop :=
| ag_none : agrees VNone VNone
| ag_number v w z : number v = Some z -> number w = Some z -> agrees v w
| ag_float f g : close f g -> agrees (VFloat f) (VFloat g)
| ag_str s : agrees (VStr s) (VStr s)
| ag_seq v w l m : seq_of v = Some l -> seq_of w = Some m -> Forall2 agrees l m -> agrees v w
| ag_dict d e : (forall k x, In (k, x) d -> exists y, In (k, y) e /\ agrees x y) -> agrees (VDict d) (VDict e)
| ag_obj c d e : (forall k x, In (k, x) d -> counts c k -> exists y, In (k, y) e /\ agrees x y) ->
    agrees (VObj c d) (VObj c e)
| ag_class n b m c : agrees (VClass n b) (VClass m c).

(** Same content up to the order of keys, to attributes that do not count in the hash,
    to list or tuple, and to booleans written as integers. *)
Inductive same_content : val -> val -> Prop :=
| sc_same v : same_content v v
| sc_number v w z : number v = Some z -> number w = Some z -> same_content v w
| sc_seq v w l m : seq_of v = Some l -> seq_of w = Some m -> Forall2 same_content l m -> same_content v w
| sc_dict d e :
    (forall k x, In (k, x) d -> exists y, In (k, y) e /\ same_content x y) ->
    (forall k, In k (map fst e) -> In k (map fst d)) -> same_content (VDict d) (VDict e)
| sc_obj c d e :
    (forall k x, In (k, x) d -> counts_in_hash c k -> exists y, In (k, y) e /\ same_content x y) ->
    (forall k, In k (map fst e) -> counts_in_hash c k -> In k (map fst d)) -> same_content (VObj c d) (VObj c e).

(** Corresponding dictionaries have the same number of keys, corresponding objects the
    same attributes that count. *)
Inductive same_sizes : val -> val -> Prop :=
| ss_seq v w l m : seq_of v = Some l -> seq_of w = Some m ->
    (forall i x y, nth_error l i = Some x -> nth_error m i = Some y -> same_sizes x y) -> same_sizes v w
| ss_dict d e : length d = length e ->
    (forall k x y, In (k, x) d -> In (k, y) e -> same_sizes x y) -> same_sizes (VDict d) (VDict e)
| ss_obj c d e :
    (forall k, counts c k -> (In k (map fst d) <-> In k (map fst e))) ->
    (forall k x y, In (k, x) d -> In (k, y) e -> same_sizes x y) -> same_sizes (VObj c d) (VObj c e)
| ss_atom v w : seq_of v = None -> (forall d, v <> VDict d) -> (forall c d, v <> VObj c d) -> same_sizes v w.

(** [k] is a key of a dictionary, or a serialised attribute of an object. *)
Definition shows (v : val) (k : key) : Prop :=
  match v with
  | VDict d => In k (map fst d)
  | VObj c d => In k (map fst d) /\ (forall s, k <> KStr (String "_" s)) /\ (forall s, In s (non_serializable c) -> k <> KStr s)
  | _ => False
  end.

(** Every object has a serialised attribute 'name'. *)
Definition has_name (v : val) : Prop :=
  match v with
  | VObj c d => In (KStr "name") (map fst d) /\ ~ In "name" (non_serializable c)
  | _ => True
  end.
Definition named (v : val) : Prop := everywhere has_name v.
End Classes.

(** [reach step p v w p' a b]: comparing [v] and [w] at path [p] leads to comparing [a]
    and [b] at path [p'].  Dictionaries may be compared in either order. *)
Section Reach.
Variable str_key : key -> string.
Variable str_nat : nat -> string.
Inductive reach : string -> val -> val -> string -> val -> val -> Prop :=
| re_here p v w : reach p v w p v w
| re_seq p v w l m i x y p' a b : seq_of v = Some l -> seq_of w = Some m ->
    nth_error l i = Some x -> nth_error m i = Some y ->
    reach (p ++ "/" ++ str_nat i)%string x y p' a b -> reach p v w p' a b
| re_dict p d e k x y p' a b : In (k, x) d -> In (k, y) e ->
    reach (p ++ "/" ++ str_key k)%string x y p' a b \/ reach (p ++ "/" ++ str_key k)%string y x p' a b ->
    reach p (VDict d) (VDict e) p' a b
| re_obj p c d c' e k x y p' a b : In (k, x) d -> In (k, y) e ->
    reach (p ++ "/" ++ str_key k)%string x y p' a b \/ reach (p ++ "/" ++ str_key k)%string y x p' a b ->
    reach p (VObj c d) (VObj c' e) p' a b.
End Reach.

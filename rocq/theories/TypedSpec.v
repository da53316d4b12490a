(** What is expected of the types written beside values. *)
From Coq Require Import Bool String List.
From Verif Require Import Base TypedModel.
Import ListNotations.
Open Scope string_scope.
Open Scope list_scope.

(** The type of a value, without reference to how it is computed. *)
Inductive has_type : value -> type -> Prop :=
| ht_bool : has_type Bool_ (TText "boolean")
| ht_int : has_type Int_ (TText "int")
| ht_float : has_type Float_ (TText "float")
| ht_str : has_type Str_ (TText "str")
| ht_dict : has_type Dict_ (TText "dict")
| ht_object c n : has_type (Object_ c n) (TText c)
| ht_output t : has_type (WithOutput t) t
| ht_none : has_type None_ TNone
| ht_seq l ts : Forall2 has_type l ts -> has_type (Sequence_ l) (TList ts).

(** [within x v]: [x] is [v] or stands in it, at any depth of lists. *)
Inductive within (x : value) : value -> Prop :=
| w_here : within x x
| w_in l v : In v l -> within x v -> within x (Sequence_ l).

Definition simple (v : value) : Prop :=
  v = Bool_ \/ v = Int_ \/ v = Float_ \/ v = Str_ \/ v = Dict_.

(** [written v j]: [j] is what stands in a file for [v], with [data] for single objects. *)
Inductive written (data : value -> json -> Prop) : value -> json -> Prop :=
| wr_one v j : (forall l, v <> Sequence_ l) -> v <> None_ -> data v j -> written data v j
| wr_none : written data None_ JNone
| wr_seq l js : Forall2 (written data) l js -> written data (Sequence_ l) (JList js).

(** [same v m]: [m] is [v] read back. *)
Inductive same : value -> made -> Prop :=
| sm_object c n : same (Object_ c n) (MObject c n)
| sm_none : same None_ (MAsIs JNone)
| sm_seq l ms : Forall2 same l ms -> same (Sequence_ l) (MList ms).

(** Values made of objects, None and lists of these. *)
Inductive plain : value -> Prop :=
| pl_object c n : plain (Object_ c n)
| pl_none : plain None_
| pl_seq l : Forall plain l -> plain (Sequence_ l).

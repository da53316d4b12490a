(** Vocabulary for datasets. *)
From Coq Require Import ZArith String Sorted Permutation List.
From Verif Require Import Base DatasetModel.
Import ListNotations.
Open Scope nat_scope.

(** [picks ps l l']: [l'] are the elements of [l] at the positions [ps]. *)
Definition picks {A} (ps : list nat) (l l' : list A) : Prop := Forall2 (fun p x => nth_error l p = Some x) ps l'.
(** [designates n z p]: the python index [z] designates position [p] of a list of length [n]. *)
Definition designates (n : nat) (z : Z) (p : nat) : Prop :=
  p < n /\ (z = Z.of_nat p \/ z = Z.of_nat p - Z.of_nat n)%Z.

Section Spec.
Context {Obj V : Type}.
Variable vector_features : Obj -> list string.
Variable to_vector : Obj -> list V.
Variable cls : Obj -> nat.
Notation dataset := (dataset Obj V).
Notation common_attributes := (common_attributes Obj V cls vector_features).

(** [reads o a v]: [v] is the component of [o] for its feature [a]. *)
Definition reads (o : Obj) (a : string) (v : V) : Prop :=
  exists i, nth_error (vector_features o) i = Some a /\ (forall j, j < i -> nth_error (vector_features o) j <> Some a)
            /\ nth_error (to_vector o) i = Some v.
(** objects have one component per feature, and the features of their class *)
Definition well_described (l : list Obj) : Prop :=
  (forall o, In o l -> length (to_vector o) = length (vector_features o)) /\
  (forall o o', In o l -> In o' l -> cls o = cls o' -> vector_features o = vector_features o').

(** Each common attribute is an attribute of each object. *)
Definition advertised (d : dataset) : Prop :=
  forall o a, In o (objects _ _ d) -> In a (common_attributes d) -> In a (vector_features o).
(** The matrix has a row per object and a column per common attribute, each cell being that
    component of that object. *)
Definition aligned (d : dataset) : Prop :=
  forall m, cached _ _ d = Some m ->
    Forall2 (fun o row => Forall2 (reads o) (common_attributes d) row) (objects _ _ d) m.
(** The common attributes are known before the matrix is. *)
Definition settled (d : dataset) : Prop :=
  objects _ _ d <> [] -> cached _ _ d <> None -> common _ _ d <> None.
Definition sound (d : dataset) : Prop := advertised d /\ aligned d /\ settled d.
(** [restricted ps d d']: [d'] is [d] reduced to the objects at the positions [ps], with the
    rows of the matrix at these positions. *)
Definition restricted (ps : list nat) (d d' : dataset) : Prop :=
  picks ps (objects _ _ d) (objects _ _ d') /\ common _ _ d' = common _ _ d /\ plain _ _ d' = plain _ _ d /\
  match cached _ _ d, cached _ _ d' with Some m, Some m' => picks ps m m' | None, None => True | _, _ => False end.

(** no cache is out of date *)
Definition fresh (d : dataset) : Prop :=
  common _ _ d = None \/ common _ _ d = Some (compute_common Obj cls vector_features (objects _ _ d)).

(** [key_value d k o v]: [v] is what the key designates in the object [o] of [d]: a component by
    its number, or an attribute, failing which a component by its name. *)
Variable getattr : Obj -> string -> option V.
Definition key_value (d : dataset) (k : sort_key) (o : Obj) (v : V) : Prop :=
  match k with
  | SInt z => exists p a, designates (length (common_attributes d)) z p
                /\ nth_error (common_attributes d) p = Some a /\ reads o a v
  | SStr a => getattr o a = Some v
              \/ (exists o1, hd_error (objects _ _ d) = Some o1 /\ getattr o1 a = None) /\ In a (common_attributes d) /\ reads o a v
  | SOther => False
  end.

(** [argsort] returns the positions of the values in increasing order. *)
Definition argsort_spec (argsort : list V -> list nat) (le : V -> V -> Prop) : Prop :=
  forall vs, Permutation (argsort vs) (seq 0 (length vs)) /\
    forall vs', picks (argsort vs) vs vs' -> StronglySorted le vs'.
End Spec.

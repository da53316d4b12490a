(** What generators of models from decision trees should give. *)
From Coq Require Import List Bool Arith Sorted.
From Verif Require Import Base.
Import ListNotations.

(** The order of a dictionary. *)
Definition lex (a b : list nat) : Prop := exists p x y r s, a = p ++ x :: r /\ b = p ++ y :: s /\ x < y.

Section Spec.
(** The nodes that are kept, and the number of choices below them. *)
Variable ok : list nat -> bool.
Variable kids : list nat -> nat.
(** A vector whose nodes were all kept, and whose choices exist. *)
Definition reached (v : list nat) : Prop := forall p i s, v = p ++ i :: s -> ok p = true /\ i < kids p.
Definition leaf (v : list nat) : Prop := reached v /\ ok v = true /\ kids v = 0.
(** The leaves, in order. *)
Definition all_leaves (vs : list (list nat)) : Prop := StronglySorted lex vs /\ forall v, In v vs <-> leaf v.
End Spec.

Section Valid.
Context {M : Type}.
Variable model_from_vector : list nat -> res M.
Variable is_vector_valid : list nat -> bool.
Variable is_model_valid : M -> bool.
Variable number_possibilities : M -> nat.
(** A vector that is valid and gives a valid model. *)
Definition gives (v : list nat) (m : M) : Prop := is_vector_valid v = true /\ model_from_vector v = Ok m /\ is_model_valid m = true.
(** Every node above is valid, and its model has enough possibilities. *)
Definition open_path (v : list nat) : Prop :=
  forall p i s, v = p ++ i :: s -> exists m, gives p m /\ i < number_possibilities m.
(** The vectors of the models to generate. *)
Definition solution (v : list nat) : Prop := open_path v /\ exists m, gives v m /\ number_possibilities m = 0.
(** With fixed numbers of possibilities: a choice at every depth, and every choice leads to a valid node. *)
Definition regular_solution (np : list nat) (v : list nat) : Prop :=
  Forall2 lt v np /\ forall p i s, v = p ++ i :: s -> exists m, gives (p ++ [i]) m.
End Valid.

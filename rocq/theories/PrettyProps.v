(** C86: pretty annotations. *)
From Coq Require Import Ascii String List Bool Arith.
From Verif Require Import Base AnnotationModel AnnotationProofs PrettyModel PrettySpec PrettyProofs.
Import ListNotations.
Local Open Scope char_scope.
Local Open Scope list_scope.

(** The pretty text of an annotation is its text with the names of classes without their modules. *)
Theorem C86_short : forall (short : str -> str) a,
  (forall n m s, in_module n m s -> short n = s) ->
  (forall n, In n (class_names a) -> exists m s, in_module n m s) ->
  pretty a = serialize (rename short a).
Proof.
  intros short a S M. apply pretty_rename. intros n I. destruct (M n I) as (m & s & H). rewrite (S n m s H). symmetry.
  eapply own_name_in. exact H.
Qed.

(** Without classes both are the same. *)
Theorem C86_no_class : forall a, class_names a = [] -> pretty a = serialize a.
Proof.
  intros a E. rewrite (pretty_rename (fun n => n) a); [rewrite rename_same; reflexivity|]. rewrite E. intros n [].
Qed.

(** There is a pretty text when there is a text, and the same error otherwise. *)
Theorem C86_errors : forall a, (forall e, pretty a = Err e <-> serialize a = Err e) /\ (pretty a = Ok None <-> serialize a = Ok None).
Proof.
  intros a. pose proof (kind_rename own_name a) as K. rewrite <- (pretty_rename own_name a) in K by reflexivity.
  destruct (pretty a) as [[s|]|e], (serialize a) as [[t|]|e']; cbn in K; try discriminate; split; try (intros e''); split; try discriminate; auto; congruence.
Qed.

(** No module is named in the pretty text of typings of builtins and classes. *)
Theorem C86_no_module : forall a s, ordinary a -> pretty a = Ok (Some s) -> ~ In "." s.
Proof. apply pretty_no_dot. Qed.

(** Modules are still named for other ones. *)
Theorem C86_module_refuted : pretty AnyType = Ok (Some (chars "typing.Any")) /\ pretty NoneType = Ok (Some (chars "typing.Type")) /\
  forall n, pretty (TypeVariable n) = Ok (Some (chars "typing.Type")).
Proof. repeat split. Qed.

(** Classes of the same name cannot be told apart, wherever they stand. *)
Theorem C86_apart_refuted : forall a n n' m m' s, in_module n m s -> in_module n' m' s ->
  pretty (rename (fun k => if str_eqb k n then n' else k) a) = pretty a.
Proof.
  intros a n n' m m' s H H'. rewrite (pretty_rename own_name a) by reflexivity. rewrite (pretty_rename own_name) by reflexivity.
  f_equal. induction a as [b|k| | | | |k|h args IH|x IH|l] using ann_ind'; try reflexivity; cbn [rename]; f_equal; auto.
  - destruct (str_eqb k n) eqn:E; [|reflexivity]. apply str_eqb_eq in E. subst. rewrite (own_name_in _ _ _ H'), (own_name_in _ _ _ H). reflexivity.
  - rewrite map_map. apply map_ext_in. apply Forall_forall. exact IH.
Qed.

Print Assumptions C86_short.
Print Assumptions C86_no_class.
Print Assumptions C86_errors.
Print Assumptions C86_no_module.
Print Assumptions C86_module_refuted.
Print Assumptions C86_apart_refuted.

(** ** Examples *)
Definition car_list : ann := App HDict [Builtin Str; App HList [Class (chars "models.cars.Car")]].
Example C86_short_ex : pretty car_list = Ok (Some (chars "Dict[str, List[Car]]")) /\ serialize car_list = Ok (Some (chars "Dict[str, List[models.cars.Car]]")).
Proof. split; reflexivity. Qed.
Example C86_short_ex2 : pretty (Repeat (App HUnion [Class (chars "a.B"); Class (chars "c.D")])) = Ok (Some (chars "Tuple[Union[B, D], ...]")).
Proof. reflexivity. Qed.
Example C86_no_class_ex : pretty (Enum [chars "a.b"; chars "c"]) = Ok (Some (chars "Literal['a.b', 'c']")).
Proof. reflexivity. Qed.
Example C86_errors_ex : pretty (App HList [App HSubclass [Class (chars "a.B")]]) = Err NotImplementedError /\ pretty NoneValue = Ok None
  /\ pretty (App HUnion [Class (chars "a.B"); NoneType]) = Ok (Some (chars "B")).
Proof. repeat split. Qed.
Example C86_no_module_ex : ~ In "." (chars "Dict[str, List[Car]]").
Proof. apply (C86_no_module car_list); [repeat constructor|reflexivity]. Qed.
Example C86_apart_ex : pretty (App HList [Class (chars "bikes.Wheel")]) = pretty (App HList [Class (chars "cars.Wheel")]).
Proof. apply (C86_apart_refuted (App HList [Class (chars "cars.Wheel")]) (chars "cars.Wheel") (chars "bikes.Wheel") (chars "cars") (chars "bikes") (chars "Wheel")); split; try reflexivity; cbn; intuition discriminate. Qed.

(** C89: the check of docstrings. *)
From Coq Require Import Ascii String List Bool Arith Lia.
From Verif Require Import Base BaseProofs AnnotationModel AnnotationProofs DocstringModel DocstringSpec DocstringProofs ProperModel ProperSpec ProperProofs.
Import ListNotations.
Local Open Scope char_scope.
Local Open Scope list_scope.

(** A docstring whose documented arguments are all arguments, with known annotations, is proper. *)
Theorem C89_proper : forall kind description params annotations, kind <> IsOther -> well_written description params ->
  Forall (fun p => annotations (fst (fst p)) = Some (Ok tt)) params ->
  check_docstring kind (Some (doc_text description params)) (Ok annotations) = Ok true.
Proof.
  intros kind description params annotations K Hw F. unfold check_docstring.
  assert (E : exists r, parse_docstring annotations (Some (doc_text description params)) = Ok r).
  { destruct (doc_text description params) as [|c s] eqn:E; [cbn; eauto|]. rewrite <- E. rewrite parse_text by (assumption || congruence).
    destruct Hw as (_ & _ & _ & H4 & H5). rewrite fold_ok by assumption. cbn [bind]. eauto. }
  destruct E as [r E]. destruct kind; [| | |congruence]; cbn [bind]; rewrite E; reflexivity.
Qed.

(** Without docstring, whatever the element is, it is not; an empty one is. *)
Theorem C89_none : forall kind hints, check_docstring kind None hints = Ok false.
Proof. reflexivity. Qed.
Theorem C89_empty : forall kind annotations, kind <> IsOther -> check_docstring kind (Some []) (Ok annotations) = Ok true.
Proof. intros [] annotations K; try congruence; reflexivity. Qed.

(** It is not proper when the first wrong argument has an annotation that serialization refuses with a TypeError. *)
Theorem C89_annotation : forall kind description params annotations, kind <> IsOther -> well_written description params ->
  first_wrong annotations (map (fun p => fst (fst p)) params) (Some TypeError) ->
  check_docstring kind (Some (doc_text description params)) (Ok annotations) = Ok false.
Proof.
  intros kind description params annotations K Hw W. unfold check_docstring.
  assert (E : parse_docstring annotations (Some (doc_text description params)) = Err TypeError).
  { rewrite parse_text by (assumption || (eapply doc_text_ne; eassumption)). destruct Hw as (_ & _ & _ & H4 & H5).
    rewrite (fold_first _ _ _ W) by assumption. reflexivity. }
  destruct kind; [| | |congruence]; cbn [bind]; rewrite E; reflexivity.
Qed.

(** But the check raises, where it should answer False, when the first wrong one is not an argument, *)
Theorem C89_unknown_refuted : forall kind description params annotations, kind <> IsOther -> well_written description params ->
  first_wrong annotations (map (fun p => fst (fst p)) params) None ->
  check_docstring kind (Some (doc_text description params)) (Ok annotations) = Err KeyError.
Proof.
  intros kind description params annotations K Hw W. unfold check_docstring.
  assert (E : parse_docstring annotations (Some (doc_text description params)) = Err KeyError).
  { rewrite parse_text by (assumption || (eapply doc_text_ne; eassumption)). destruct Hw as (_ & _ & _ & H4 & H5).
    rewrite (fold_first _ _ _ W) by assumption. reflexivity. }
  destruct kind; [| | |congruence]; cbn [bind]; rewrite E; reflexivity.
Qed.

(** or has an annotation that serialization refuses otherwise, *)
Theorem C89_other_error_refuted : forall kind description params annotations e, kind <> IsOther -> well_written description params ->
  first_wrong annotations (map (fun p => fst (fst p)) params) (Some e) -> e <> TypeError ->
  check_docstring kind (Some (doc_text description params)) (Ok annotations) = Err e.
Proof.
  intros kind description params annotations e K Hw W N. unfold check_docstring.
  assert (E : parse_docstring annotations (Some (doc_text description params)) = Err e).
  { rewrite parse_text by (assumption || (eapply doc_text_ne; eassumption)). destruct Hw as (_ & _ & _ & H4 & H5).
    rewrite (fold_first _ _ _ W) by assumption. reflexivity. }
  destruct kind; [| | |congruence]; cbn [bind]; rewrite E; destruct e; congruence.
Qed.

(** or when no colon comes after the name of the first documented argument. *)
Theorem C89_no_colon_refuted : forall kind description t ts annotations, kind <> IsOther ->
  ~ occurs (chars ":param ") description -> ~ In ":" t -> Forall (fun t => ~ occurs (chars ":param ") t) ts ->
  ~ occurs (chars ":return:") (description ++ concat (map (fun t => chars ":param " ++ t) (t :: ts))) ->
  check_docstring kind (Some (description ++ concat (map (fun t => chars ":param " ++ t) (t :: ts)))) (Ok annotations) = Err ValueError.
Proof.
  intros kind description t ts annotations K Hd Ht Hts Hr. unfold check_docstring.
  destruct kind; [| | |congruence]; cbn [bind];
    (match goal with |- context [parse_docstring ?a ?d] => assert (E : parse_docstring a d = Err ValueError) by (apply parse_no_colon; assumption) end;
     rewrite E; reflexivity).
Qed.

(** Annotations that cannot be read, and elements of other kinds, with a docstring, are errors. *)
Theorem C89_hints : forall kind s e, kind <> IsOther -> check_docstring kind (Some s) (Err e) = Err e.
Proof. intros [] s e K; try congruence; reflexivity. Qed.
Theorem C89_kind : forall s hints, check_docstring IsOther (Some s) hints = Err NotImplementedError.
Proof. reflexivity. Qed.

(** ** Examples *)
Definition ex_annotations (n : str) : option (res unit) :=
  if str_eqb n (chars "x") then Some (Ok tt) else if str_eqb n (chars "f") then Some (Err TypeError)
  else if str_eqb n (chars "g") then Some (Err NotImplementedError) else None.
Example C89_proper_ex : check_docstring IsClass (Some (chars "A thing. :param x: Its size.")) (Ok ex_annotations) = Ok true.
Proof. reflexivity. Qed.
Example C89_annotation_ex : check_docstring IsFunction (Some (chars "A thing. :param x: Its size. :param f: Its force.")) (Ok ex_annotations) = Ok false.
Proof. reflexivity. Qed.
Example C89_unknown_ex : check_docstring IsMethod (Some (chars "A thing. :param x: Its size. :param y: Other.")) (Ok ex_annotations) = Err KeyError.
Proof. reflexivity. Qed.
Example C89_other_error_ex : check_docstring IsMethod (Some (chars "A thing. :param g: Its size.")) (Ok ex_annotations) = Err NotImplementedError.
Proof. reflexivity. Qed.
Example C89_no_colon_ex : check_docstring IsClass (Some (chars "A thing. :param x its size.")) (Ok ex_annotations) = Err ValueError.
Proof.
  apply (C89_no_colon_refuted IsClass (chars "A thing. ") (chars "x its size.") [] ex_annotations); try discriminate.
  - intros O. apply contains_iff in O. discriminate O.
  - cbn. intuition discriminate.
  - constructor.
  - intros O. apply contains_iff in O. discriminate O.
Qed.
Example C89_first_wrong_ex : first_wrong ex_annotations [chars "x"; chars "y"; chars "f"] None.
Proof. apply wrong_later; [reflexivity|]. apply wrong_unknown. reflexivity. Qed.

Print Assumptions C89_proper.
Print Assumptions C89_annotation.
Print Assumptions C89_unknown_refuted.
Print Assumptions C89_other_error_refuted.
Print Assumptions C89_no_colon_refuted.
Print Assumptions C89_hints.
Print Assumptions C89_kind.

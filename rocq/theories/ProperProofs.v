(** Proofs on the check of docstrings. *)
From Coq Require Import Ascii String List Bool Arith Lia.
From Verif Require Import Base BaseProofs AnnotationModel AnnotationProofs DocstringModel DocstringSpec DocstringProofs ProperModel ProperSpec.
Import ListNotations.
Local Open Scope char_scope.
Local Open Scope list_scope.

Lemma fold_first annotations params w : first_wrong annotations (map (fun p => fst (fst p)) params) w -> forall acc,
  Forall (fun p => ~ In ":" (fst (fst p))) params ->
  Forall (fun p => ~ occurs (chars ":type") (fst (fst p) ++ ":" :: snd (fst p))) params ->
  foldM (fun args param => let* p := parse_attribute annotations param in Ok (set_doc (fst p) (snd p) args))
    (map param_text params) acc = Err (match w with Some e => e | None => KeyError end).
Proof.
  induction params as [|[[n d] t] params IH]; intros W acc H1 H2; cbn in W; [inversion W|].
  inversion H1; inversion H2; subst. cbn [fst snd] in *. cbn [map foldM]. rewrite parse_attribute_ok by assumption.
  inversion W as [? ? E|? ? ? E|? ? ? E W']; subst; rewrite E; cbn [of_option bind fst snd]; [reflexivity|reflexivity|].
  apply IH; assumption.
Qed.

Lemma doc_text_ne description params w annotations : first_wrong annotations (map (fun p => fst (fst p)) params) w -> doc_text description params <> [].
Proof.
  intros W E. unfold doc_text in E. apply app_eq_nil in E as [_ E]. destruct params; [inversion W|discriminate].
Qed.

Lemma has_iff c s : has c s = true <-> In c s.
Proof.
  unfold has. rewrite existsb_exists. split.
  - intros (d & I & E). apply Ascii.eqb_eq in E. subst; exact I.
  - intros I. exists c. split; [exact I|]. apply Ascii.eqb_refl.
Qed.

Lemma parse_no_colon annotations description t ts : ~ occurs (chars ":param ") description -> ~ In ":" t ->
  Forall (fun t => ~ occurs (chars ":param ") t) ts ->
  ~ occurs (chars ":return:") (description ++ concat (map (fun t => chars ":param " ++ t) (t :: ts))) ->
  parse_docstring annotations (Some (description ++ concat (map (fun t => chars ":param " ++ t) (t :: ts)))) = Err ValueError.
Proof.
  intros Hd Ht Hts Hr. unfold parse_docstring. destruct (description ++ _) as [|c s] eqn:E; [destruct description; discriminate|].
  rewrite <- E in *. clear c s E. rewrite (split_str_none (chars ":return:")) by exact Hr. cbn [hd].
  change (fun t0 : list ascii => chars ":param " ++ t0) with (app (chars ":param ")).
  change (chars ":param ") with (":" :: chars "param "). rewrite split_str_concat.
  - cbn [tl foldM]. unfold parse_attribute at 1.
    assert (C : forall s, starts_with (chars ":type") s = true -> In ":" s).
    { intros s S. apply starts_with_iff in S as [b ->]. cbn. auto. }
    assert (N : contains (chars ":type") t = false).
    { destruct (contains (chars ":type") t) eqn:K; [|reflexivity]. apply contains_iff in K as (a & b & ->). exfalso. apply Ht.
      apply in_or_app. right. cbn. auto. }
    rewrite N. assert (H : has ":" t = false) by (destruct (has ":" t) eqn:K; [apply has_iff in K; tauto|reflexivity]).
    rewrite H. reflexivity.
  - cbn. intuition discriminate.
  - exact Hd.
  - constructor; [|exact Hts]. intros (a & b & ->). apply Ht. apply in_or_app. right. cbn. auto.
Qed.

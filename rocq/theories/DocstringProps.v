(** C63: what docstrings say about arguments is what forms show. *)
From Coq Require Import Ascii String List Bool Arith Lia.
From Verif Require Import Base BaseProofs AnnotationModel AnnotationProofs DocstringModel DocstringSpec DocstringProofs.
Import ListNotations.
Local Open Scope char_scope.
Local Open Scope list_scope.
Local Open Scope nat_scope.

(** [annotations n] is what serializing the annotation of [n] gives, None when it has none. *)
Definition documentable (annotations : str -> option (res unit)) (n : str) : Prop := annotations n = Some (Ok tt).

(** Each documented argument has its own description, the last one if there are several, an argument that is not documented has an
    empty one, and the description of the object is what comes before the arguments. *)
Theorem C63_parsed : forall annotations description params,
  well_written description params ->
  Forall (fun p => documentable annotations (fst (fst p))) params ->
  exists shown descriptions,
    member_docstring annotations (Some (doc_text description params)) = (shown, descriptions) /\
    trimmed description shown /\
    (forall before n d t after, params = before ++ (n, d, t) :: after -> ~ In n (map (fun p => fst (fst p)) after) ->
       trimmed d (attribute_description descriptions n)) /\
    (forall n, ~ In n (map (fun p => fst (fst p)) params) -> attribute_description descriptions n = []).
Proof.
  intros annotations description params Hw Hk. unfold member_docstring.
  destruct (doc_text description params) as [|c s] eqn:E.
  - cbn [parse_docstring]. exists [], []. unfold doc_text in E. apply app_eq_nil in E as [-> E].
    destruct params as [|[[n d] t] params]; [|cbn in E; discriminate].
    split; [reflexivity|]. split; [apply strip_trimmed|]. split; [intros [|? ?] n d t after E0; discriminate E0|reflexivity].
  - rewrite <- E. rewrite parse_text by (assumption || congruence). destruct Hw as (_ & _ & _ & H4 & H5).
    rewrite fold_ok by assumption. cbn [bind]. do 2 eexists; split; [reflexivity|]. split; [apply strip_trimmed|].
    unfold attribute_description. split.
    + intros before n d t after -> Hn. rewrite fold_lookup, (last_desc_last n d t) by assumption. apply strip_trimmed.
    + intros n Hn. rewrite fold_lookup, last_desc_none by exact Hn. reflexivity.
Qed.

(** What is trimmed is determined, as soon as there is something else than white space. *)
Theorem C63_trimmed_unique : forall s t u, trimmed s t -> trimmed s u -> (exists c, In c t /\ ~ white c) -> t = u.
Proof. exact trimmed_unique. Qed.

(** Whatever follows ":return:" changes nothing. *)
Theorem C63_return : forall annotations s rest, ~ occurs (chars ":return:") (s ++ chars ":return") ->
  member_docstring annotations (Some (s ++ chars ":return:" ++ rest)) = member_docstring annotations (Some s).
Proof.
  intros annotations s rest H. unfold member_docstring. f_equal.
  assert (E : split_str (chars ":return:") (s ++ chars ":return:" ++ rest) = s :: split_str (chars ":return:") rest).
  { unfold split_str. rewrite split_go_sep; [reflexivity|discriminate|]. intros a c b Ea.
    destruct (starts_with _ _) eqn:Q; [|reflexivity]. exfalso. apply starts_with_iff in Q as [r Q].
    (* the occurrence found ends before the last character of the marker *)
    assert (L : exists u, c :: b ++ chars ":return" = chars ":return:" ++ u).
    { exists (firstn (List.length b) r). apply (f_equal (firstn (S (List.length b) + 7))) in Q.
      assert (E1 : firstn (S (List.length b) + 7) (c :: b ++ chars ":return:" ++ rest) = c :: b ++ chars ":return").
      { cbn [Nat.add firstn]. f_equal. rewrite firstn_app, firstn_all2 by lia. f_equal.
        replace (List.length b + 7 - List.length b) with 7 by lia. reflexivity. }
      rewrite E1 in Q. rewrite Q. rewrite firstn_app. rewrite firstn_all2 by (cbn; lia). do 2 f_equal. cbn. lia. }
    destruct L as [u L]. apply H. exists a, u. rewrite Ea, <- app_assoc. cbn [app]. rewrite L. reflexivity. }
  destruct s as [|c s]; [cbn [app] in E|].
  - cbn [parse_docstring app]. destruct (chars ":return:" ++ rest) as [|c0 s0] eqn:F; [discriminate|]. cbn [parse_docstring]. rewrite E. reflexivity.
  - cbn [app parse_docstring]. cbn [app] in E. rewrite E. cbn [hd].
    rewrite (split_str_none (chars ":return:") (c :: s)); [reflexivity|].
    intros O. apply H. apply occurs_app_l, O.
Qed.

(** An object without docstring has no description. *)
Theorem C63_none : forall annotations, member_docstring annotations None = ([], []).
Proof. reflexivity. Qed.

(** One documented name that is not an argument, or whose annotation is not known, is enough: the
    whole documentation is lost. *)
Theorem C63_all_or_nothing : forall annotations description params,
  well_written description params ->
  Exists (fun p => ~ documentable annotations (fst (fst p))) params ->
  member_docstring annotations (Some (doc_text description params)) = (chars "Docstring parsing failed", []).
Proof.
  intros annotations description params Hw Hk. unfold member_docstring.
  rewrite parse_text; [|exact Hw|].
  - destruct Hw as (_ & _ & _ & H4 & H5). destruct (fold_err annotations params [] H4 H5 Hk) as [e ->]. reflexivity.
  - intros E. unfold doc_text in E. apply app_eq_nil in E as [_ E]. destruct params; [inversion Hk|discriminate].
Qed.

(** So the description of an argument that is an argument may not be shown. *)
Definition known_x (n : str) : option (res unit) := if str_eqb n (chars "x") then Some (Ok tt) else None.
Theorem C63_description_kept_refuted : exists description params n d t,
  well_written description params /\ NoDup (map (fun p => fst (fst p)) params) /\
  In (n, d, t) params /\ documentable known_x n /\
  attribute_description (snd (member_docstring known_x (Some (doc_text description params)))) n <> d /\ trimmed d d.
Proof.
  exists (chars "D. "), [(chars "x", chars "length", None); (chars "y", chars "width", None)], (chars "x"), (chars "length"), None.
  split.
  { assert (N : forall p s, contains p s = false -> ~ occurs p s) by (intros p s C O; apply contains_iff in O; congruence).
    repeat split; repeat constructor; try (apply N; vm_compute; reflexivity); cbn; intuition discriminate. }
  split; [repeat constructor; cbn; intuition discriminate|]. split; [left; reflexivity|]. split; [reflexivity|]. split; [vm_compute; discriminate|].
  change (trimmed (chars "length") (strip (chars "length"))). apply strip_trimmed.
Qed.

(** Pretty names: of the same length, underscores become spaces, a word of at least two characters
    starts with a capital, nothing else changes. *)
Theorem C63_prettyname : forall name, List.length (prettyname name) = List.length name /\
  forall i c, nth_error name i = Some c -> exists d, nth_error (prettyname name) i = Some d /\
    let starts := i = 0 \/ (exists j, i = S j /\ nth_error name j = Some "_") in
    let goes_on := exists e, nth_error name (S i) = Some e /\ e <> "_" in
    (c = "_" -> d = " ") /\ (c <> "_" -> starts -> goes_on -> capital c d) /\ (c <> "_" -> ~ (starts /\ goes_on) -> d = c).
Proof.
  intros name. destruct (pretty_both name) as [E _]. rewrite <- E. split; [apply pretty_chars_length|].
  intros i c Hi. destruct (pretty_chars_nth name true i c Hi) as (d & H1 & H2 & H3 & H4). exists d. split; [exact H1|].
  assert (Hiff : (i = 0 \/ (exists j, i = S j /\ nth_error name j = Some "_")) <->
                 match i with O => true = true | S j => nth_error name j = Some "_" end).
  { destruct i as [|j]; [tauto|]. split; [intros [Q|(k & Q & R)]; [discriminate|injection Q as ->; exact R]|intros R; right; eauto]. }
  cbv zeta. rewrite Hiff. auto.
Qed.

Example docstring_case :
  well_written (chars " A beam.  ") [(chars "length", chars " In meters. ", None); (chars "mass", chars "  In kg", Some (chars "float"))] /\
  member_docstring (fun _ => Some (Ok tt))
    (Some (doc_text (chars " A beam.  ") [(chars "length", chars " In meters. ", None); (chars "mass", chars "  In kg", Some (chars "float"))])) =
  (chars "A beam.", [(chars "length", chars "In meters."); (chars "mass", chars "In kg")]).
Proof.
  split; [|vm_compute; reflexivity].
  assert (N : forall p s, contains p s = false -> ~ occurs p s) by (intros p s C O; apply contains_iff in O; congruence).
  repeat split; repeat constructor; try (apply N; vm_compute; reflexivity); cbn; intuition discriminate.
Qed.
Example pretty_case : prettyname (chars "inner_ring_x_1b") = chars "Inner Ring x 1b".
Proof. reflexivity. Qed.
Example return_case : ~ occurs (chars ":return:") (chars "Text " ++ chars ":return").
Proof. intros O. apply contains_iff in O. vm_compute in O. discriminate. Qed.

Print Assumptions C63_parsed.
Print Assumptions C63_trimmed_unique.
Print Assumptions C63_return.
Print Assumptions C63_none.
Print Assumptions C63_all_or_nothing.
Print Assumptions C63_description_kept_refuted.
Print Assumptions C63_prettyname.

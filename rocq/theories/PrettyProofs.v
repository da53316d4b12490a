(** Proofs on pretty annotations. *)
From Coq Require Import Ascii String List Bool Arith Lia.
From Verif Require Import Base BaseProofs AnnotationModel AnnotationProofs PrettyModel PrettySpec.
Import ListNotations.
Local Open Scope char_scope.
Local Open Scope list_scope.
Local Open Scope nat_scope.

Lemma own_name_no_dot s : ~ In "." (own_name s).
Proof.
  induction s as [|c s IH]; [intros []|]. cbn [own_name]. destruct (has "." (c :: s)) eqn:E; [exact IH|]. apply has_not. exact E.
Qed.
Lemma own_name_bare s : ~ In "." s -> own_name s = s.
Proof. destruct s as [|c s]; [reflexivity|]. intros H. apply has_not in H. cbn [own_name]. rewrite H. reflexivity. Qed.
Lemma own_name_in m n s : in_module n m s -> own_name n = s.
Proof.
  intros [-> H]. induction m as [|c m IH].
  - cbn [app own_name]. rewrite has_cons. cbn. apply own_name_bare. exact H.
  - cbn [app own_name]. replace (has "." (c :: m ++ "." :: s)) with true; [exact IH|].
    symmetry. apply has_in. right. apply in_or_app. right. left. reflexivity.
Qed.

Lemma default_rename f args : union_is_default_value (map (rename f) args) = union_is_default_value args.
Proof.
  unfold union_is_default_value. rewrite map_length. f_equal. induction args as [|a args IH]; [reflexivity|]. cbn. rewrite IH.
  destruct a; reflexivity.
Qed.
Lemma get_schema_rename f a : get_schema (rename f a) = get_schema a.
Proof. destruct a; reflexivity. Qed.
Lemma schemas_rename f args : mapM get_schema (map (rename f) args) = mapM get_schema args.
Proof. induction args as [|a args IH]; [reflexivity|]. cbn [map mapM]. rewrite get_schema_rename, IH. reflexivity. Qed.

Lemma pretty_rename f a : (forall n, In n (class_names a) -> f n = own_name n) -> pretty a = serialize (rename f a).
Proof.
  induction a as [b|n| | | | |n|h args IH|x IH|l] using ann_ind'; intros H; try reflexivity.
  - cbn [pretty rename serialize]. rewrite (H n) by (left; reflexivity). reflexivity.
  - cbn [pretty rename serialize]. destruct (head_beq h HSubclass); [reflexivity|]. rewrite default_rename.
    assert (E : map_res pretty args = map_res serialize (map (rename f) args)).
    { clear -IH H. cbn [class_names] in H. induction IH as [|a args Ha _ IHa]; [reflexivity|]. cbn [map_res map].
      rewrite <- Ha; [|intros n I; apply H; cbn; apply in_or_app; left; exact I].
      rewrite IHa; [reflexivity|]. intros n I. apply H. cbn. apply in_or_app. right. exact I. }
    destruct (head_beq h HUnion && union_is_default_value args).
    + destruct IH as [|a args Ha _]; [reflexivity|]. cbn [map]. apply Ha. intros n I. apply H. cbn. apply in_or_app. left. exact I.
    + destruct args as [|a args]; [reflexivity|].
      change (map (rename f) (a :: args)) with (rename f a :: map (rename f) args) at 1. cbv iota.
      change (rename f a :: map (rename f) args) with (map (rename f) (a :: args)).
      rewrite schemas_rename, <- E. reflexivity.
  - cbn [pretty rename serialize]. rewrite get_schema_rename, <- IH by exact H. reflexivity.
Qed.

Lemma rename_same a : rename (fun n => n) a = a.
Proof.
  induction a as [b|n| | | | |n|h args IH|x IH|l] using ann_ind'; try reflexivity; cbn [rename]; f_equal; auto.
  induction IH as [|a args Ha _ IHa]; [reflexivity|]. cbn. congruence.
Qed.

(** ** Names do not decide whether there is a text *)
Definition text_kind (r : res (option str)) : res bool := match r with Ok (Some _) => Ok true | Ok None => Ok false | Err e => Err e end.

Lemma strings_kind (l m : list (option str)) : Forall2 (fun s t => s = None <-> t = None) l m ->
  match mapM string_of l, mapM string_of m with Ok _, Ok _ => True | Err e, Err e' => e = e' | _, _ => False end.
Proof.
  induction 1 as [|s t l m H _ IH]; [exact I|]. cbn [mapM]. destruct s as [s|], t as [t|]; cbn.
  - destruct (mapM string_of l), (mapM string_of m); cbn; auto.
  - destruct H as [_ H]. specialize (H eq_refl). discriminate.
  - destruct H as [H _]. specialize (H eq_refl). discriminate.
  - reflexivity.
Qed.
Lemma kind_rename f a : text_kind (serialize (rename f a)) = text_kind (serialize a).
Proof.
  induction a as [b|n| | | | |n|h args IH|x IH|l] using ann_ind'; try reflexivity.
  - cbn [rename serialize]. destruct (head_beq h HSubclass); [reflexivity|]. rewrite default_rename.
    assert (E : match map_res serialize (map (rename f) args), map_res serialize args with
                | Ok l, Ok m => Forall2 (fun s t => s = None <-> t = None) l m | Err e, Err e' => e = e' | _, _ => False end).
    { clear -IH. induction IH as [|a args Ha _ IHa]; [constructor|]. cbn [map_res map].
      destruct (serialize (rename f a)) as [s|e], (serialize a) as [t|e']; cbn [bind text_kind] in *.
      - destruct (map_res serialize (map (rename f) args)), (map_res serialize args); cbn [bind]; auto. constructor; [|exact IHa].
        destruct s, t; split; congruence.
      - destruct s; discriminate.
      - destruct t; discriminate.
      - congruence. }
    destruct (head_beq h HUnion && union_is_default_value args).
    + destruct IH as [|a args Ha _]; [reflexivity|]. exact Ha.
    + destruct args as [|a args]; [reflexivity|].
      change (map (rename f) (a :: args)) with (rename f a :: map (rename f) args) at 1. cbv iota.
      change (rename f a :: map (rename f) args) with (map (rename f) (a :: args)).
      rewrite schemas_rename. destruct (mapM get_schema (a :: args)); [|reflexivity]. cbn [bind].
      destruct (map_res serialize (map (rename f) (a :: args))) as [l|e], (map_res serialize (a :: args)) as [m|e']; cbn [bind] in *; try (destruct E; fail).
      * apply strings_kind in E. destruct (mapM string_of l), (mapM string_of m); cbn [bind text_kind]; try (destruct E; fail); congruence.
      * congruence.
  - cbn [rename serialize]. rewrite get_schema_rename. destruct (get_schema x); [|reflexivity]. cbn [bind].
    destruct (serialize (rename f x)) as [[s|]|e], (serialize x) as [[t|]|e']; cbn in *; congruence.
Qed.

Lemma join_no_dot l : Forall (fun s => ~ In "." s) l -> ~ In "." (join (chars ", ") l).
Proof.
  induction 1 as [|s l H F IH]; [intros []|]. destruct l as [|t l]; [exact H|].
  change (join (chars ", ") (s :: t :: l)) with (s ++ chars ", " ++ join (chars ", ") (t :: l)).
  intros K. apply in_app_or in K. destruct K as [K|K]; [auto|]. apply in_app_or in K. destruct K as [K|K]; [|auto].
  cbn in K. intuition discriminate.
Qed.
Lemma head_no_dot h : ~ In "." (head_name h).
Proof. apply has_not. destruct h; reflexivity. Qed.

Lemma pretty_no_dot a s : ordinary a -> pretty a = Ok (Some s) -> ~ In "." s.
Proof.
  revert s. induction a as [b|n| | | | |n|h args IH|x IH|l] using ann_ind'; intros t O H; try (inversion O; fail).
  - injection H as <-. apply has_not. destruct b; reflexivity.
  - injection H as <-. apply own_name_no_dot.
  - injection H as <-. apply has_not. reflexivity.
  - cbn [pretty] in H. destruct (head_beq h HSubclass); [discriminate|]. inversion O as [| | |h' args' F]; subst.
    destruct (head_beq h HUnion && union_is_default_value args).
    + destruct IH as [|a args Ha _]; [discriminate|]. inversion F; subst. apply Ha; auto.
    + destruct args as [|a args]; [injection H as <-; apply head_no_dot|]. set (l := a :: args) in *. clearbody l.
      destruct (mapM get_schema l); [|discriminate]. cbn [bind] in H.
      destruct (map_res pretty l) as [parts|] eqn:E; [|discriminate]. cbn [bind] in H.
      destruct (mapM string_of parts) as [texts|] eqn:E'; [|discriminate]. cbn [bind] in H. injection H as <-.
      assert (T : Forall (fun s => ~ In "." s) texts).
      { clear -IH F E E'. revert parts texts E E'. induction l as [|a l IHl]; intros parts texts E E'.
        - injection E as <-. injection E' as <-. constructor.
        - inversion IH as [|? ? Ha IH']; subst. inversion F as [|? ? Oa F']; subst. cbn [map_res] in E.
          destruct (pretty a) as [s|] eqn:Ea; [|discriminate]. cbn [bind] in E. destruct (map_res pretty l) as [ps|] eqn:Es; [|discriminate].
          cbn [bind] in E. injection E as <-. cbn [mapM] in E'. destruct s as [s|]; [|discriminate]. cbn [string_of of_option bind] in E'.
          destruct (mapM string_of ps) as [ts|] eqn:Et; [|discriminate]. cbn [bind] in E'. injection E' as <-.
          constructor; [apply Ha; auto|]. eapply IHl; eauto. }
      intros K. apply in_app_or in K. destruct K as [K|[K|K]]; [revert K; apply head_no_dot|discriminate|].
      apply in_app_or in K. destruct K as [K|[K|[]]]; [|discriminate]. revert K. apply join_no_dot. exact T.
Qed.

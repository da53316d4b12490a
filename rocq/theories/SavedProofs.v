(** Reading what was written: dictionaries, variables and blocks that nest nothing. *)
From Coq Require Import ZArith Bool String Ascii Arith Lia List.
From Verif Require Import Base BaseProofs ExecModel ExecSpec ExecStruct WiringModel WiringSpec WiringProofs VariablesModel ScriptModel ScriptSpec SavedModel SavedSpec.
Import ListNotations.
Open Scope string_scope.
Open Scope list_scope.

(** ** Lists *)
Lemma map1M_mapM {A C} (f : A -> res C) l : map1M f l = mapM f l.
Proof. induction l as [|a l IH]; simpl; auto. rewrite IH. reflexivity. Qed.

Lemma all2_nth {A B} (R : A -> B -> Prop) l : forall m, all2 R l m ->
  length l = length m /\ forall i a b, nth_error l i = Some a -> nth_error m i = Some b -> R a b.
Proof.
  induction l as [|a l IH]; intros [|b m]; simpl; try tauto.
  - intros _. split; auto. intros [|i]; discriminate.
  - intros [H K]. destruct (IH _ K) as [L N]. split; [lia|]. intros [|i] x y; simpl.
    + intros E1 E2. injection E1 as <-. injection E2 as <-. exact H.
    + apply N.
Qed.
Lemma all2_intro {A B} (R : A -> B -> Prop) l : forall m, length l = length m ->
  (forall i a b, nth_error l i = Some a -> nth_error m i = Some b -> R a b) -> all2 R l m.
Proof.
  induction l as [|a l IH]; intros [|b m]; simpl; try discriminate; auto.
  intros L N. split; [apply (N 0); reflexivity|]. apply IH; [lia|]. intros i x y. apply (N (S i)).
Qed.

Lemma map2M_inv {A B C} (f : A -> B -> res C) l : forall m r, length l = length m -> map2M f l m = Ok r ->
  length r = length l /\ forall i a b, nth_error l i = Some a -> nth_error m i = Some b ->
    exists c, nth_error r i = Some c /\ f a b = Ok c.
Proof.
  induction l as [|a l IH]; intros [|b m] r L E; try discriminate.
  - injection E as <-. split; auto. intros [|i]; discriminate.
  - cbn [map2M] in E. destruct (f a b) as [c|] eqn:F; [|discriminate]. cbn [bind] in E.
    destruct (map2M f l m) as [r'|] eqn:G; [|discriminate]. cbn [bind] in E. injection E as <-.
    destruct (IH m r') as [L' N]; auto. split; [simpl; lia|]. intros [|i] x y; simpl.
    + intros E1 E2. injection E1 as <-. injection E2 as <-. eauto.
    + apply N.
Qed.
Lemma map2M_ok {A B C} (f : A -> B -> res C) l : forall m, 
  (forall i a b, nth_error l i = Some a -> nth_error m i = Some b -> exists c, f a b = Ok c) -> exists r, map2M f l m = Ok r.
Proof.
  induction l as [|a l IH]; intros [|b m] H; cbn [map2M]; eauto.
  destruct (H 0 a b eq_refl eq_refl) as [c ->]. cbn [bind].
  destruct (IH m) as [r ->]; [|cbn [bind]; eauto]. intros i x y. apply (H (S i)).
Qed.
Lemma mapM_nth {A B} (f : A -> res B) l : forall r, mapM f l = Ok r ->
  length r = length l /\ forall i a, nth_error l i = Some a -> exists c, nth_error r i = Some c /\ f a = Ok c.
Proof.
  induction l as [|a l IH]; intros r E; cbn [mapM] in E.
  - injection E as <-. split; auto. intros [|i]; discriminate.
  - destruct (f a) as [c|] eqn:F; [|discriminate]. cbn [bind] in E.
    destruct (mapM f l) as [r'|] eqn:G; [|discriminate]. cbn [bind] in E. injection E as <-.
    destruct (IH r') as [L' N]; auto. split; [simpl; lia|]. intros [|i] x; simpl.
    + intros E1. injection E1 as <-. eauto.
    + apply N.
Qed.
Lemma mapM_ok_all {A B} (f : A -> res B) l : (forall a, In a l -> exists c, f a = Ok c) -> exists r, mapM f l = Ok r.
Proof.
  induction l as [|a l IH]; intros H; cbn [mapM]; eauto.
  destruct (H a (or_introl eq_refl)) as [c ->]. cbn [bind]. destruct IH as [r ->]; [|cbn [bind]; eauto].
  intros x I. apply H. simpl. auto.
Qed.
Lemma mapM_all {A B} (f : A -> res B) l r : mapM f l = Ok r -> forall a, In a l -> exists c, f a = Ok c.
Proof.
  intros E a I. destruct (In_nth_error _ _ I) as [i N]. destruct (mapM_nth f l r E) as [_ H].
  destruct (H i a N) as [c [_ F]]. eauto.
Qed.
Lemma mapM_inverse {A B} (f : A -> B) (g : B -> res A) l : (forall a, In a l -> g (f a) = Ok a) -> mapM g (map f l) = Ok l.
Proof.
  induction l as [|a l IH]; intros H; cbn [map mapM]; auto. rewrite H by (simpl; auto). cbn [bind].
  rewrite IH; [reflexivity|]. intros x I. apply H. simpl. auto.
Qed.

(** ** Names of classes *)
Lemma rsplit_undotted s : undotted s -> rsplit s = None.
Proof.
  unfold undotted. induction s as [|a s IH]; simpl; auto. intros H. rewrite IH by tauto.
  destruct (Ascii.eqb_spec a "."); auto. subst. tauto.
Qed.
Lemma rsplit_app m n : undotted n -> rsplit (m ++ "." ++ n)%string = Some (m, n).
Proof.
  intros H. induction m as [|a m IH]; cbn [append rsplit].
  - rewrite rsplit_undotted by auto. reflexivity.
  - cbn [append] in IH. rewrite IH. reflexivity.
Qed.
Lemma class_back c : undotted (c_name c) -> class_of (classname c) = Ok c.
Proof. intros H. unfold class_of, classname. rewrite rsplit_app by auto. destruct c. reflexivity. Qed.

Lemma typed_back t c n : undotted (c_name c) ->
  typed_of [("class_", JText (classname c)); ("name", JText n); ("object_class", JText (classname (in_typings t)))] = Ok (c, n).
Proof.
  intros H. unfold typed_of, class_at, text_at, item, get. cbn [find fst snd String.eqb Ascii.eqb Bool.eqb option_map of_option bind as_text].
  rewrite (class_back c H). reflexivity.
Qed.

Lemma texts_back l : mapM as_text (map JText l) = Ok l.
Proof. apply mapM_inverse. reflexivity. Qed.
Lemma ints_back l : mapM as_int (map JInt l) = Ok l.
Proof. apply mapM_inverse. reflexivity. Qed.
Lemma filters_back l : mapM read_filter (map write_filter l) = Ok l.
Proof. apply mapM_inverse. intros [a o b n] _. reflexivity. Qed.
Lemma views_back l : mapM read_view (map write_view l) = Ok l.
Proof.
  apply mapM_inverse. intros [p a n] _. unfold read_view, write_view, texts_at, item. cbn [pv_parallel pv_attributes pv_name].
  destruct p; cbn [as_dict bind]; (change (class_at "object_class" _) with (Ok (in_blocks "ParallelView")) || change (class_at "object_class" _) with (Ok (in_blocks "ScatterView")));
    cbn [bind]; change (get "attributes" _) with (Some (JList (map JText a))); cbn [of_option bind as_list]; rewrite texts_back; reflexivity.
Qed.
Lemma display_back x : read_display (write_display x) = Ok x.
Proof. destruct x as [[s|] t m a y b]; reflexivity. Qed.

Lemma nat_back x : as_nat (JInt (Z.of_nat x)) = Ok x.
Proof. unfold as_nat. cbn [as_int bind]. rewrite Nat2Z.id. reflexivity. Qed.

(** [cls_eqb] on classes of workflow/blocks.py *)
Ltac lookups :=
  repeat match goal with
  | |- context [get ?k (?e :: ?l)] =>
      let r := eval cbv [get find option_map snd fst String.eqb Ascii.eqb Bool.eqb base app] in (get k (e :: l)) in
      change (get k (e :: l)) with r
  end.

Definition is_old (c : conf) : bool := match c with COldView _ _ _ | COldMultiPlot _ _ => true | _ => false end.

Lemma conf_back c n_in n p : regular c n -> (forall k f, c = CArchive k f -> n_in = S k) ->
  read_conf (write_conf c n_in n p) = Ok ((c, n), negb (is_old c)) /\ pos_at "position" (write_conf c n_in n p) = Ok p.
Proof.
  intros R A. split; [|destruct c, p; try destruct v; reflexivity].
  unfold read_conf.
  destruct c; cbn [write_conf]; cbv zeta;
  match goal with
  | |- context [base ?x _ _] =>
      try (match x with view_name _ => destruct v | old_name _ => destruct v end)
  end; cbn [view_name selector_name old_name base app];
  (match goal with |- context [class_at "object_class" ?l] =>
    let r := eval vm_compute in (class_at "object_class" [nth 0 l ("", JNull)]) in change (class_at "object_class" l) with r end);
  cbn [bind];
  (match goal with |- context [text_at "name" ?l] => change (text_at "name" l) with (Ok n : res string) end);
  cbn [bind];
  cbv beta iota delta [cls_eqb in_blocks c_module c_name String.eqb Ascii.eqb Bool.eqb andb];
  cbv iota; unfold typed_at, dict_at, class_at, nat_at, texts_at, bool_at, bool_or, text_or, text_at, item; lookups;
  unfold write_typed; cbn [of_option bind as_text as_list as_bool as_dict is_old negb];
  rewrite ?nat_back, ?texts_back, ?ints_back, ?filters_back, ?views_back; cbn [regular] in R; cbn [bind];
  try reflexivity;
  try (rewrite typed_back by tauto; cbn [bind fst snd]; try reflexivity);
  try (rewrite class_back by tauto; reflexivity).
  - destruct n; [destruct R; contradiction|reflexivity].
  - destruct filename; [destruct R; contradiction|reflexivity].
  - rewrite (A n0 filename eq_refl). replace (S n0 - 1) with n0 by lia. reflexivity.
Qed.

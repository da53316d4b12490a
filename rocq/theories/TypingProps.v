(** C12: matching types. *)
From Coq Require Import ZArith QArith String Ascii List Bool Arith Lia.
From Verif Require Import Base PyValue TypingModel TypingProofs.
Import ListNotations.
Open Scope string_scope.
Open Scope list_scope.
Open Scope nat_scope.

(** ** C12 *)

(** Every type matches itself and Any. *)
Theorem C12_reflexive : forall subclass t, typematch subclass t t = Ok true.
Proof. intros. rewrite typematch_eq, teq_refl. auto. Qed.

Theorem C12_any : forall subclass t, typematch subclass t TAny = Ok true.
Proof. intros. rewrite typematch_eq. rewrite orb_true_r. auto. Qed.

(** A class matches its ancestors, and int matches float; nothing else. *)
Theorem C12_class : forall subclass a b, (forall c, subclass c c = true) ->
  typematch subclass (TClass a) (TClass b) = Ok (subclass a b || (String.eqb a "int" && String.eqb b "float")).
Proof.
  intros subclass a b R. rewrite typematch_eq. cbn [teq is_any is_typing particular_typematches negb issubclass bind heal_type].
  destruct (String.eqb_spec a b) as [->|N]; [rewrite R; auto|]. cbn [orb].
  destruct (String.eqb a "int" && String.eqb b "float"); [rewrite orb_true_r; auto|].
  destruct (subclass a b); auto.
Qed.

(** Lists match when their items do, dictionaries when keys and values do, in this order. *)
Theorem C12_list : forall subclass a b, typematch subclass (TList a) (TList b) = typematch subclass a b.
Proof.
  intros. rewrite typematch_eq. cbn [teq is_any is_typing particular_typematches]. destruct (teq a b) eqn:E; auto.
  cbn [orb]. rewrite (typematch_eq subclass a b), E. auto.
Qed.

Theorem C12_dict : forall subclass k a j b,
  typematch subclass (TDict k a) (TDict j b)
  = let* keys := typematch subclass k j in if keys then typematch subclass a b else Ok false.
Proof.
  intros. rewrite typematch_eq. cbn [teq is_any is_typing particular_typematches].
  destruct (teq k j && teq a b) eqn:E; auto. apply andb_true_iff in E. destruct E as [E1 E2].
  rewrite (typematch_eq subclass k j), E1. cbn [orb bind]. rewrite (typematch_eq subclass a b), E2. auto.
Qed.

(** Tuples of the same length match when their items do. *)
Theorem C12_tuple : forall subclass l m, List.length l = List.length m ->
  (typematch subclass (TTuple l) (TTuple m) = Ok true
   <-> forall i a b, nth_error l i = Some a -> nth_error m i = Some b -> typematch subclass a b = Ok true).
Proof.
  intros subclass l m L. rewrite typematch_eq. cbn [teq is_any is_typing particular_typematches].
  assert (Z : all_zip (typematch subclass) l m = Ok true
   <-> forall i a b, nth_error l i = Some a -> nth_error m i = Some b -> typematch subclass a b = Ok true).
  { split; [apply all_zip_true|]. revert m L. induction l as [|x l IH]; intros [|y m] L H; simpl in *; try lia; auto.
    rewrite (H 0 x y) by auto. simpl. apply IH; [lia|]. intros i a b. apply (H (S i)). }
  destruct (all2 teq l m) eqn:E; [|rewrite <- Z; reflexivity].
  split; auto. intros _ i a b Ha Hb. destruct (all2_spec _ _ _ E) as [_ P]. destruct (P i a Ha) as (b' & Hb' & T).
  rewrite Hb in Hb'. injection Hb' as <-. rewrite typematch_eq, T. auto.
Qed.

Theorem C12_sequence : forall subclass a b,
  typematch subclass (TTuple [a; TEllipsis]) (TTuple [b; TEllipsis]) = typematch subclass a b.
Proof.
  intros. rewrite typematch_eq. cbn [teq all2 is_any is_typing particular_typematches]. rewrite !andb_true_r.
  destruct (teq a b) eqn:E; [rewrite (typematch_eq subclass a b), E; auto|]. cbn [orb].
  unfold complex_first_type_match. cbn [heal_type is_typing negb all_zip]. rewrite C12_reflexive. cbn [bind].
  destruct (typematch subclass a b) as [[|]|]; auto.
Qed.

(** A class matches a union of several classes when it matches one of them, and a union
    matches another one when its members are among the members of the other. *)
Theorem C12_class_union : forall subclass c args, union_is_default_value args = false ->
  (forall a, In a args -> exists d, a = TClass d) ->
  typematch subclass (TClass c) (TUnion args) = Ok true
  <-> exists a, In a args /\ typematch subclass (TClass c) a = Ok true.
Proof.
  intros subclass c args D All. rewrite typematch_eq.
  cbn [teq is_any is_typing particular_typematches orb negb bind heal_type]. rewrite D.
  assert (M : exists r, mapM (typematch subclass (TClass c)) args = Ok r).
  { clear D. induction args as [|a args IH]; simpl; [eauto|]. destruct (All a) as [d ->]; [simpl; auto|].
    destruct IH as [r Hr]; [intros; apply All; simpl; auto|]. rewrite Hr.
    rewrite typematch_eq. cbn [is_typing negb issubclass bind heal_type].
    destruct (teq (TClass c) (TClass d) || is_any (TClass d) || particular_typematches (TClass c) (TClass d)); simpl; [eauto|].
    destruct (subclass c d); simpl; eauto. }
  destruct M as [r Hr]. rewrite Hr. cbn [bind]. split.
  - intros H. injection H as H. eapply mapM_some; eauto.
  - intros (a & Ia & Ha). f_equal. clear D All. revert r Hr. induction args as [|x args IH]; intros r Hr; simpl in *; [tauto|].
    destruct (typematch subclass (TClass c) x) as [b|] eqn:Ex; simpl in Hr; [|discriminate].
    destruct (mapM (typematch subclass (TClass c)) args) as [bs|]; simpl in Hr; [|discriminate]. injection Hr as <-.
    destruct Ia as [->|Ia]; [rewrite Ex in Ha; injection Ha as ->; auto|]. simpl. rewrite (IH Ia bs eq_refl). apply orb_true_r.
Qed.

Theorem C12_unions : forall subclass l m, union_is_default_value l = false -> union_is_default_value m = false ->
  (forall a, In a l -> In a m) -> typematch subclass (TUnion l) (TUnion m) = Ok true.
Proof.
  intros subclass l m Dl Dm H. rewrite typematch_eq.
  destruct (teq (TUnion l) (TUnion m) || is_any (TUnion m) || particular_typematches (TUnion l) (TUnion m)); auto.
  unfold complex_first_type_match. cbn [is_typing negb heal_type]. rewrite Dl, Dm. f_equal.
  apply forallb_forall. intros x Hx. apply existsb_exists. exists x. split; auto. apply teq_refl.
Qed.

(** Optional lists, dictionaries and tuples count for what is optional, on both sides. *)
Theorem C12_optional : forall subclass a b, is_typing a = true -> is_typing b = true ->
  (forall l, a <> TUnion l) -> (forall l, b <> TUnion l) -> teq a b = false ->
  typematch subclass (TUnion [a; NoneType]) b = typematch subclass a b
  /\ typematch subclass a (TUnion [b; NoneType]) = typematch subclass a b.
Proof.
  intros subclass a b Ta Tb Ua Ub N.
  assert (Ha : heal_type (TUnion [a; NoneType]) = a).
  { cbn [heal_type]. unfold union_is_default_value. cbn [existsb List.length]. rewrite (teq_refl NoneType), orb_true_r. auto. }
  assert (Hb : heal_type (TUnion [b; NoneType]) = b).
  { cbn [heal_type]. unfold union_is_default_value. cbn [existsb List.length]. rewrite (teq_refl NoneType), orb_true_r. auto. }
  assert (Ia : heal_type a = a) by (destruct a; auto; exfalso; eapply Ua; eauto).
  assert (Ib : heal_type b = b) by (destruct b; auto; exfalso; eapply Ub; eauto).
  assert (E : typematch subclass a b = complex_first_type_match (typematch subclass) a b).
  { rewrite typematch_eq, N, Ta. destruct b; try discriminate; destruct a; try discriminate; auto. }
  rewrite E. unfold complex_first_type_match. rewrite Tb, Ia, Ib. cbn [negb]. split.
  - rewrite typematch_eq. cbn [is_typing]. assert (teq (TUnion [a; NoneType]) b = false) as ->.
    { destruct b; auto. exfalso. eapply Ub. eauto. }
    assert (is_any b = false) as -> by (destruct b; auto; discriminate). cbn [orb particular_typematches].
    unfold complex_first_type_match. rewrite Ha, Ib, Tb. auto.
  - rewrite typematch_eq. rewrite Ta. assert (teq a (TUnion [b; NoneType]) = false) as ->.
    { destruct a; auto. exfalso. eapply Ua. eauto. }
    assert (particular_typematches a (TUnion [b; NoneType]) = false) as -> by (destruct a; auto). cbn [orb is_any].
    unfold complex_first_type_match. rewrite Ia, Hb. auto.
Qed.

(** Soundness: when a type matches another one, its values are values of the other, None and
    integers given for floats being accepted.  Tuple types must all have the same number of
    arguments, or all be of the form Tuple[t, ...]. *)
Theorem C12_sound : forall subclass,
  (forall a b c, subclass a b = true -> subclass b c = true -> subclass a c = true) ->
  (forall c, subclass c "NoneType" = true -> c = "NoneType") ->
  (forall c, subclass "float" c = true -> c = "float" \/ subclass "int" c = true) ->
  forall s t m, tuples_like s t -> tuples_like s m ->
  typematch subclass t m = Ok true -> forall v, has_type subclass v t -> has_type subclass v m.
Proof. intros subclass H1 H2 H3 s t m Lt Lm H v Hv. eapply (typematch_sound subclass H1 H2 H3 s (size t + size m)); eauto. Qed.

(** On types made of classes, lists and dictionaries, Any being allowed in the second one, the
    answer is that of subtyping: nothing is wrongly refused, nothing raises. *)
Inductive plain : ty -> Prop :=
| plain_class c : plain (TClass c)
| plain_list a : plain a -> plain (TList a)
| plain_dict k a : plain k -> plain a -> plain (TDict k a).
Inductive pattern : ty -> Prop :=
| pattern_any : pattern TAny
| pattern_class c : pattern (TClass c)
| pattern_list a : pattern a -> pattern (TList a)
| pattern_dict k a : pattern k -> pattern a -> pattern (TDict k a).
Inductive subtype (subclass : string -> string -> bool) : ty -> ty -> Prop :=
| sub_any t : subtype subclass t TAny
| sub_class a b : subclass a b = true -> subtype subclass (TClass a) (TClass b)
| sub_int : subtype subclass (TClass "int") (TClass "float")
| sub_list a b : subtype subclass a b -> subtype subclass (TList a) (TList b)
| sub_dict k a j b : subtype subclass k j -> subtype subclass a b -> subtype subclass (TDict k a) (TDict j b).

Theorem C12_plain : forall subclass, (forall c, subclass c c = true) ->
  forall t m, plain t -> pattern m ->
  (typematch subclass t m = Ok true /\ subtype subclass t m)
  \/ (typematch subclass t m = Ok false /\ ~ subtype subclass t m).
Proof.
  intros subclass R t m Ht. revert m. induction Ht as [c|a Ha IH|k a Hk IHk Ha IHa]; intros m Hm.
  - inversion Hm as [|d|b Hb|j b Hj Hb]; subst.
    + left. split; [apply C12_any|constructor].
    + rewrite C12_class by auto. destruct (subclass c d) eqn:S; [left; split; auto; constructor; auto|].
      destruct (String.eqb_spec c "int") as [->|Nc].
      * destruct (String.eqb_spec d "float") as [->|Nd]; [left; split; auto; apply sub_int|].
        right. split; auto. intros X. inversion X; congruence.
      * right. split; auto. intros X. inversion X; congruence.
    + right. split; [rewrite typematch_eq; auto|]. intros X. inversion X.
    + right. split; [rewrite typematch_eq; auto|]. intros X. inversion X.
  - inversion Hm as [|d|b Hb|j b Hj Hb]; subst.
    + left. split; [apply C12_any|constructor].
    + right. split; [rewrite typematch_eq; auto|]. intros X. inversion X.
    + rewrite C12_list. destruct (IH b Hb) as [[E S]|[E S]]; [left; split; auto; constructor; auto|].
      right. split; auto. intros X. inversion X. auto.
    + right. split; [rewrite typematch_eq; auto|]. intros X. inversion X.
  - inversion Hm as [|d|b Hb|j b Hj Hb]; subst.
    + left. split; [apply C12_any|constructor].
    + right. split; [rewrite typematch_eq; auto|]. intros X. inversion X.
    + right. split; [rewrite typematch_eq; auto|]. intros X. inversion X.
    + rewrite C12_dict. destruct (IHk j Hj) as [[E S]|[E S]]; rewrite E; cbn [bind].
      * destruct (IHa b Hb) as [[E' S']|[E' S']]; [left; split; auto; constructor; auto|].
        right. split; auto. intros X. inversion X. auto.
      * right. split; auto. intros X. inversion X. auto.
Qed.

(** The comparison always ends. *)
Theorem C12_ends : forall subclass t m, typematch subclass t m <> Err OutOfFuel.
Proof.
  intros subclass. assert (G : forall n t m, size t + size m <= n -> typematch subclass t m <> Err OutOfFuel).
  { induction n as [|n IH]; intros t m Hn; [pose proof (size_pos t); lia|]. rewrite typematch_eq.
    destruct (teq t m || is_any m || particular_typematches t m); [congruence|]. destruct (is_typing t).
    - unfold complex_first_type_match. destruct (negb (is_typing m)); [congruence|].
      pose proof (heal_size t) as St. pose proof (heal_size m) as Sm.
      destruct (heal_type t) eqn:Et; destruct (heal_type m) eqn:Em; simpl in St, Sm; try congruence.
      + apply IH. lia.
      + destruct (typematch subclass _ _) as [[|]|e] eqn:E; simpl; try congruence.
        * apply IH. lia.
        * intros X. injection X as ->. revert E. apply IH. lia.
      + assert (Z : forall l k, (forall x y, In x l -> In y k -> typematch subclass x y <> Err OutOfFuel) ->
          all_zip (typematch subclass) l k <> Err OutOfFuel).
        { clear. induction l as [|x l IHl]; intros [|y k] H; simpl; try congruence.
          destruct (typematch subclass x y) as [[|]|e] eqn:E; simpl; try congruence.
          - apply IHl. intros a b Ha Hb. apply H; simpl; auto.
          - intros X. injection X as ->. revert E. apply H; simpl; auto. }
        apply Z. intros x y Hx Hy. apply size_in in Hx, Hy. apply IH. lia.
      + destruct (String.eqb _ _); congruence.
    - destruct (if negb (is_typing m) then issubclass subclass t m else Ok false) as [[|]|e] eqn:E; simpl; try congruence.
      + pose proof (heal_size m) as Sm. destruct (heal_type m) as [| | | | | |args|]; try congruence.
        assert (Z : forall l, (forall x, In x l -> typematch subclass t x <> Err OutOfFuel) ->
          mapM (typematch subclass t) l <> Err OutOfFuel).
        { clear. induction l as [|x l IHl]; intros H; simpl; try congruence.
          destruct (typematch subclass t x) as [b|e] eqn:E; simpl.
          - assert (X := IHl (fun x Hx => H x (or_intror Hx))). destruct (mapM (typematch subclass t) l); simpl; congruence.
          - intros X. injection X as ->. revert E. apply H. simpl. auto. }
        assert (X : mapM (typematch subclass t) args <> Err OutOfFuel).
        { apply Z. intros x Hx. apply size_in in Hx. simpl in Sm. apply IH. lia. }
        destruct (mapM (typematch subclass t) args); simpl; congruence.
      + destruct (is_typing m); simpl in E; [discriminate|]. unfold issubclass in E. destruct t, m; congruence. }
  intros t m. eapply G. eauto.
Qed.

(** ** Where it goes wrong *)

(** Tuples of other lengths are accepted: missing and additional items are not looked at. *)
Theorem C12_tuple_length_refuted : forall subclass args more,
  typematch subclass (TTuple args) (TTuple (args ++ more)) = Ok true
  /\ typematch subclass (TTuple (args ++ more)) (TTuple args) = Ok true.
Proof.
  intros subclass args more.
  assert (G : forall m p, all_zip (typematch subclass) (args ++ m) (args ++ p) = Ok true \/ (m <> [] /\ p <> [])).
  { intros m p. destruct m as [|x m]; [left|destruct p as [|y p]; [left|right; split; congruence]].
    - rewrite app_nil_r. induction args as [|a args IH]; simpl; auto. rewrite C12_reflexive. auto.
    - rewrite app_nil_r. induction args as [|a args IH]; simpl; auto. rewrite C12_reflexive. auto. }
  assert (N : forall x y, x = args /\ y = args ++ more \/ x = args ++ more /\ y = args ->
    all_zip (typematch subclass) x y = Ok true -> typematch subclass (TTuple x) (TTuple y) = Ok true).
  { intros x y _ H. rewrite typematch_eq. destruct (teq _ _ || is_any _ || particular_typematches _ _); auto. }
  split; apply N; auto.
  - destruct (G [] more) as [H|[H _]]; [rewrite app_nil_r in H; auto|congruence].
  - destruct (G more []) as [H|[_ H]]; [rewrite app_nil_r in H; auto|congruence].
Qed.

(** A tuple of any length matches a tuple of two items, the second being of any type. *)
Theorem C12_sequence_any_refuted : forall subclass a,
  typematch subclass (TTuple [a; TEllipsis]) (TTuple [a; TAny]) = Ok true.
Proof.
  intros. rewrite typematch_eq. cbn [teq all2]. rewrite andb_false_r. cbn [orb is_any particular_typematches is_typing].
  unfold complex_first_type_match. cbn [is_typing negb heal_type all_zip]. rewrite C12_reflexive, C12_any. auto.
Qed.

(** Two items against tuples of any length raise. *)
Theorem C12_sequence_refuted : forall subclass a c,
  typematch subclass (TTuple [a; TClass c]) (TTuple [a; TEllipsis]) = Err TypeError.
Proof.
  intros. rewrite typematch_eq. cbn [teq all2]. rewrite andb_false_r. cbn [orb is_any particular_typematches is_typing].
  unfold complex_first_type_match. cbn [is_typing negb heal_type all_zip]. rewrite C12_reflexive. cbn [bind].
  rewrite typematch_eq. auto.
Qed.

(** A class does not match its own optional, and two optionals of distinct classes cannot be
    compared. *)
Theorem C12_optional_refuted : forall subclass a b, a <> "NoneType" ->
  typematch subclass (TClass a) (TUnion [TClass a; NoneType]) = Ok false
  /\ (a <> b -> b <> "NoneType" ->
      typematch subclass (TUnion [TClass a; NoneType]) (TUnion [TClass b; NoneType]) = Err NotImplementedError).
Proof.
  intros subclass a b Na. apply String.eqb_neq in Na.
  assert (H : forall c, heal_type (TUnion [TClass c; NoneType]) = TClass c).
  { intros c. cbn [heal_type]. unfold union_is_default_value. cbn [existsb List.length]. rewrite (teq_refl NoneType), orb_true_r. auto. }
  split.
  - rewrite typematch_eq. cbn [teq is_any particular_typematches orb is_typing negb bind]. rewrite H. auto.
  - intros Nab Nb. apply String.eqb_neq in Nab, Nb. rewrite typematch_eq.
    assert (teq (TUnion [TClass a; NoneType]) (TUnion [TClass b; NoneType]) = false) as ->.
    { unfold NoneType. cbn [teq forallb existsb]. rewrite Nab, Na. auto. }
    cbn [orb is_any particular_typematches is_typing]. unfold complex_first_type_match. rewrite !H. auto.
Qed.

(** A list, dictionary or tuple never matches a union, be it one of its members. *)
Theorem C12_union_member_refuted : forall subclass t args, is_typing t = true -> (forall l, t <> TUnion l) ->
  union_is_default_value args = false -> typematch subclass t (TUnion args) = Ok false.
Proof.
  intros subclass t args T U D. rewrite typematch_eq, T.
  assert (teq t (TUnion args) = false) as -> by (destruct t; auto; exfalso; eapply U; eauto).
  assert (particular_typematches t (TUnion args) = false) as -> by (destruct t; auto). cbn [orb is_any].
  unfold complex_first_type_match. cbn [is_typing negb]. assert (heal_type t = t) as -> by (destruct t; auto; exfalso; eapply U; eauto).
  cbn [heal_type]. rewrite D. destruct t; try discriminate; auto. exfalso. eapply U. eauto.
Qed.

(** Any cannot be compared with a class, and matching is not transitive: a boolean is an
    integer, an integer may be given for a float, a boolean may not. *)
Theorem C12_any_refuted : forall subclass c, typematch subclass TAny (TClass c) = Err TypeError.
Proof. intros. rewrite typematch_eq. auto. Qed.

Theorem C12_transitive_refuted : forall subclass, (forall c, subclass c c = true) ->
  subclass "bool" "int" = true -> subclass "bool" "float" = false ->
  typematch subclass (TClass "bool") (TClass "int") = Ok true
  /\ typematch subclass (TClass "int") (TClass "float") = Ok true
  /\ typematch subclass (TClass "bool") (TClass "float") = Ok false.
Proof. intros subclass R H1 H2. rewrite !C12_class by auto. rewrite H1, H2. split; auto. split; auto. rewrite orb_comm. auto. Qed.

Print Assumptions C12_reflexive.
Print Assumptions C12_any.
Print Assumptions C12_class.
Print Assumptions C12_list.
Print Assumptions C12_dict.
Print Assumptions C12_tuple.
Print Assumptions C12_sequence.
Print Assumptions C12_class_union.
Print Assumptions C12_unions.
Print Assumptions C12_optional.
Print Assumptions C12_sound.
Print Assumptions C12_plain.
Print Assumptions C12_ends.
Print Assumptions C12_tuple_length_refuted.
Print Assumptions C12_sequence_any_refuted.
Print Assumptions C12_sequence_refuted.
Print Assumptions C12_optional_refuted.
Print Assumptions C12_union_member_refuted.
Print Assumptions C12_any_refuted.
Print Assumptions C12_transitive_refuted.

(** ** Examples *)

(** a hierarchy: bool < int < object, Measure < float < object, Child < Parent < object *)
Definition hierarchy (a b : string) : bool :=
  String.eqb a b || String.eqb b "object"
  || (String.eqb a "bool" && String.eqb b "int") || (String.eqb a "Measure" && String.eqb b "float")
  || (String.eqb a "Child" && String.eqb b "Parent").

Example hierarchy_transitive : forall a b c, hierarchy a b = true -> hierarchy b c = true -> hierarchy a c = true.
Proof.
  intros a b c. unfold hierarchy. rewrite !orb_true_iff, !andb_true_iff, !String.eqb_eq.
  intros H1 H2.
  destruct H1 as [[[[->| ->]|[-> ->]]|[-> ->]]|[-> ->]]; destruct H2 as [[[[->| ->]|[Ea Eb]]|[Ea Eb]]|[Ea Eb]]; subst;
    try discriminate; auto 10.
Qed.
Example hierarchy_none : forall c, hierarchy c "NoneType" = true -> c = "NoneType".
Proof.
  intros c. unfold hierarchy. rewrite !orb_true_iff, !andb_true_iff, !String.eqb_eq. intuition; discriminate.
Qed.
Example hierarchy_float : forall c, hierarchy "float" c = true -> c = "float" \/ hierarchy "int" c = true.
Proof.
  intros c H. unfold hierarchy in H. rewrite !orb_true_iff, !andb_true_iff, !String.eqb_eq in H.
  destruct H as [[[[<-| ->]|[E _]]|[E _]]|[E _]]; auto; discriminate.
Qed.

(** lists of dictionaries; a tuple whose first item is optional *)
Example C12_example :
  typematch hierarchy (TList (TDict (TClass "str") (TClass "Child"))) (TList (TDict (TClass "str") (TClass "Parent"))) = Ok true
  /\ typematch hierarchy (TList (TDict (TClass "str") (TClass "Parent"))) (TList (TDict (TClass "str") (TClass "Child"))) = Ok false
  /\ typematch hierarchy (TTuple [TClass "int"; TClass "bool"]) (TTuple [TClass "float"; TUnion [TClass "str"; TClass "int"]]) = Ok true
  /\ typematch hierarchy (TList (TClass "int")) (TUnion [TList (TClass "int"); TClass "str"]) = Ok false
  /\ typematch hierarchy (TTuple [TClass "int"; TClass "str"]) (TTuple [TClass "int"]) = Ok true.
Proof. repeat split; reflexivity. Qed.

Example C12_sound_example : forall v,
  has_type hierarchy v (TUnion [TList (TClass "Measure"); NoneType]) -> has_type hierarchy v (TList (TClass "float")).
Proof.
  apply (C12_sound hierarchy hierarchy_transitive hierarchy_none hierarchy_float (Some 0)); [| |reflexivity];
    repeat constructor.
Qed.

Example C12_values_example :
  has_type hierarchy (TupleV [Inst "int"; Inst "Child"]) (TTuple [TClass "float"; TClass "Parent"])
  /\ ~ has_type hierarchy (TupleV [Inst "int"]) (TTuple [TClass "float"; TClass "Parent"]).
Proof.
  split.
  - apply has_tuple; auto.
    + intros [H|[H|[]]]; discriminate.
    + intros [|[|[|i]]] x a Hx Ha; simpl in *; try discriminate; injection Hx as <-; injection Ha as <-.
      * apply has_int. auto.
      * apply has_class. auto.
  - intros H. inversion H. subst. simpl in *. discriminate.
Qed.

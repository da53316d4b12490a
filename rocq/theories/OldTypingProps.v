(** Theorems about the reading of typings from texts. *)
From Coq Require Import Ascii String List Bool Arith Lia.
From Verif Require Import Base AnnotationModel AnnotationProofs OldTypingModel OldTypingSpec OldTypingProofs.
Import ListNotations.
Open Scope char_scope.
Open Scope list_scope.
Open Scope nat_scope.

Section Props.
Variable importable : str -> bool.
Notation class_name := (class_name importable).
Notation back a := (let* s := serialize a in deserialize_typing importable s).

Theorem C84_back : forall a, readable importable a -> back a = Ok a.
Proof.
  intros a R. destruct (readable_text importable a R) as (s & S & _ & _ & T). rewrite S. cbn [bind].
  apply T. lia.
Qed.

(** Inside brackets, the names of builtins are not known. *)
Theorem C84_builtin_refuted :
  (forall h b, In h [HList; HTuple; HInstanceOf] -> back (App h [Builtin b]) = Err ValueError) /\
  (forall b a, readable importable a -> (forall h l, a <> App h l) -> back (App HDict [Builtin b; a]) = Err ValueError) /\
  (forall s b, class_name s -> back (App HDict [Class s; Builtin b]) = Err ValueError).
Proof.
  split; [|split].
  - intros h b I. cbn in I. destruct I as [<-|[<-|[<-|[]]]]; destruct b; reflexivity.
  - intros b a R N. destruct (readable_text importable a R) as (s & S & G & _ & _).
    assert (D : has "[" s = false /\ exists x y, s = x :: y).
    { destruct R as [b'| |s' C|h s' I C|s1 s2 C1 C2|h k l I R]; try (exfalso; eapply N; reflexivity).
      - injection S as <-. destruct b'; split; try reflexivity; do 2 eexists; reflexivity.
      - injection S as <-. split; [reflexivity|]. do 2 eexists; reflexivity.
      - injection S as <-. split; [exact (cn_open _ _ C)|]. destruct s' as [|x y]; [discriminate (cn_dot _ _ C)|]. eauto. }
    destruct D as [D (x & y & E)].
    assert (Q : serialize (App HDict [Builtin b; a])
      = Ok (Some (head_name HDict ++ "[" :: (builtin_name b ++ chars ", " ++ s) ++ ["]"]))).
    { cbn [serialize head_beq andb mapM map_res get_schema]. rewrite G, S. reflexivity. }
    rewrite Q. cbn [bind]. unfold deserialize_typing. rewrite text_shape by reflexivity.
    rewrite !has_app, D. replace (has "[" (builtin_name b)) with false by (destruct b; reflexivity).
    cbn [orb has chars list_ascii_of_string existsb Ascii.eqb Bool.eqb].
    unfold deserialize_simple. cbn [head_name chars list_ascii_of_string str_eqb Ascii.eqb Bool.eqb andb].
    cbn [app]. rewrite split_app by (destruct b; reflexivity). destruct b; reflexivity.
  - intros s b C.
    assert (Q : serialize (App HDict [Class s; Builtin b])
      = Ok (Some (head_name HDict ++ "[" :: (s ++ chars ", " ++ builtin_name b) ++ ["]"]))) by reflexivity.
    rewrite Q. cbn [bind]. unfold deserialize_typing. rewrite text_shape by reflexivity.
    rewrite !has_app, (cn_open _ _ C). replace (has "[" (builtin_name b)) with false by (destruct b; reflexivity).
    cbn [orb has chars list_ascii_of_string existsb Ascii.eqb Bool.eqb].
    unfold deserialize_simple. cbn [head_name chars list_ascii_of_string str_eqb Ascii.eqb Bool.eqb andb].
    cbn [app]. rewrite split_app by apply (cn_comma _ _ C). rewrite split_one by (destruct b; reflexivity).
    cbn [nth_error of_option bind]. rewrite (argname_ok importable s C). destruct b; reflexivity.
Qed.

Lemma simple_tuple args s :
  deserialize_simple importable (head_name HTuple) args s = deserialize_tuple_typing importable args.
Proof. reflexivity. Qed.

Lemma ser_classes h l : l <> [] -> head_beq h HSubclass = false -> h <> HUnion ->
  serialize (App h (map Class l)) = Ok (Some (head_name h ++ "[" :: join (chars ", ") l ++ ["]"])).
Proof.
  intros N H U. cbn [serialize]. rewrite H.
  assert (E : head_beq h HUnion = false).
  { destruct (head_beq h HUnion) eqn:E; [|reflexivity]. apply head_beq_eq in E. contradiction. }
  rewrite E. cbn [andb].
  assert (G : mapM get_schema (map Class l) = Ok (map (fun _ => tt) l)).
  { clear N. induction l as [|x l IH]; [reflexivity|]. cbn [map mapM get_schema bind]. rewrite IH. reflexivity. }
  assert (S : map_res serialize (map Class l) = Ok (map Some l)).
  { clear N G. induction l as [|x l IH]; [reflexivity|]. cbn [map map_res serialize bind]. rewrite IH. reflexivity. }
  assert (T : mapM string_of (map Some l) = Ok l).
  { clear N G S. induction l as [|x l IH]; [reflexivity|]. cbn [map mapM string_of of_option bind]. rewrite IH. reflexivity. }
  rewrite G, S. cbn [bind]. rewrite T. cbn [bind].
  destruct l as [|x l]; [contradiction|]. reflexivity.
Qed.

Lemma join_open l : (forall s, In s l -> has "[" s = false) -> has "[" (join (chars ", ") l) = false.
Proof.
  intros H. apply join_has; [reflexivity|]. apply Forall_forall. exact H.
Qed.

(** Tuples: the same class several times is read as any number of times; this one, as every
    tuple of different classes, is refused. *)
Theorem C84_tuple_refuted :
  (forall s n, class_name s -> back (App HTuple (repeat (Class s) (S (S n)))) = Ok (Repeat (Class s))) /\
  (forall s t l, class_name s -> In t l -> s <> t -> Forall class_name l ->
     back (App HTuple (Class s :: map Class l)) = Err TypeError) /\
  (forall s, class_name s -> back (Repeat (Class s)) = Err TypeError).
Proof.
  split; [|split].
  - intros s n C.
    assert (M : repeat (Class s) (S (S n)) = map Class (repeat s (S (S n)))).
    { generalize (S (S n)) as k. induction k as [|k IH]; [reflexivity|]. cbn [repeat map]. rewrite IH. reflexivity. }
    assert (Hs : forall x, In x (repeat s (S (S n))) -> x = s) by (intros x I; exact (repeat_spec _ _ _ I)).
    rewrite M, ser_classes; [|discriminate|reflexivity|discriminate].
    cbn [bind]. unfold deserialize_typing. rewrite text_shape by reflexivity.
    rewrite join_open by (intros x I; rewrite (Hs x I); exact (cn_open _ _ C)).
    rewrite simple_tuple. unfold deserialize_tuple_typing.
    rewrite (split_join (repeat s (S (S n)))); [|discriminate|intros x I; rewrite (Hs x I); exact (cn_comma _ _ C)].
    cbn [repeat].
    replace (forallb (str_eqb s) (s :: repeat s n)) with true.
    + rewrite argname_ok by exact C. reflexivity.
    + symmetry. apply forallb_forall. intros x I. apply str_eqb_eq. symmetry. apply Hs. right. exact I.
  - intros s t l C I N F. change (Class s :: map Class l) with (map Class (s :: l)).
    rewrite Forall_forall in F.
    assert (A : forall x, In x (s :: l) -> class_name x) by (intros x [<-|J]; auto).
    rewrite ser_classes; [|discriminate|reflexivity|discriminate].
    cbn [bind]. unfold deserialize_typing. rewrite text_shape by reflexivity.
    rewrite join_open by (intros x J; exact (cn_open _ _ (A x J))).
    rewrite simple_tuple. unfold deserialize_tuple_typing.
    rewrite (split_join (s :: l)); [|discriminate|intros x J; exact (cn_comma _ _ (A x J))].
    destruct l as [|y l]; [destruct I|].
    destruct (forallb (str_eqb s) (y :: l)) eqn:E; [|reflexivity]. exfalso.
    rewrite forallb_forall in E. apply N, str_eqb_eq, E, I.
  - intros s C. cbn [serialize get_schema bind]. unfold deserialize_typing.
    change (chars "Tuple[" ++ s ++ chars ", ...]") with (head_name HTuple ++ "[" :: s ++ chars ", ..." ++ ["]"]).
    rewrite app_assoc, text_shape by reflexivity.
    rewrite has_app, (cn_open _ _ C). cbn [orb has chars list_ascii_of_string existsb Ascii.eqb Bool.eqb].
    rewrite simple_tuple. unfold deserialize_tuple_typing.
    change (s ++ ["," ; " "; "."; "."; "."]) with (s ++ "," :: " " :: ["."; "."; "."]).
    rewrite split_app by exact (cn_comma _ _ C). cbn [split_comma Ascii.eqb Bool.eqb andb].
    destruct (forallb (str_eqb s) [["."; "."; "."]]) eqn:E; [|reflexivity]. exfalso.
    cbn [forallb] in E. rewrite andb_true_r in E. apply str_eqb_eq in E.
    apply (cn_reserved _ _ C). rewrite E. cbn. tauto.
Qed.

Theorem C84_total : forall s, deserialize_typing importable s <> Err OutOfFuel.
Proof. intros [s|]; [|discriminate]. apply text_fuel. lia. Qed.

(** Dictionaries of typings with brackets, and the other typings, are never read. *)
Theorem C84_other_refuted : (forall s, has "[" s = true -> importable s = false) ->
  (forall s h t, class_name s -> class_name t -> In h [HList; HTuple; HInstanceOf] ->
     exists e, back (App HDict [Class s; App h [Class t]]) = Err e) /\
  (forall h l, In h [HIterator; HType; HMethodType; HClassMethodType; HAttributeType; HClassAttributeType] ->
     l <> [] -> Forall class_name l -> exists e, back (App h (map Class l)) = Err e).
Proof.
  intros B.
  assert (P : forall s, has "[" s = true -> exists e, python_class importable s = Err e).
  { intros s H. unfold python_class. rewrite (lookup_none_has "[" s builtin_names H eq_refl).
    unfold class_from_name. destruct (has "." s).
    - assert (E : forall t, has "[" (chars t) = false -> str_eqb s (chars t) = false).
      { intros t T. destruct (str_eqb s (chars t)) eqn:E; [|reflexivity]. apply str_eqb_eq in E. subst. congruence. }
      rewrite !E by reflexivity. rewrite (B s H). eauto.
    - assert (E : str_eqb s (chars "None") = false).
      { destruct (str_eqb s (chars "None")) eqn:E; [|reflexivity]. apply str_eqb_eq in E. subst. discriminate. }
      rewrite E. eauto. }
  split.
  - intros s h t Cs Ct I.
    assert (Q : serialize (App HDict [Class s; App h [Class t]])
      = Ok (Some (head_name HDict ++ "[" :: ((s ++ chars ", " ++ head_name h) ++ "[" :: t ++ ["]"]) ++ ["]"]))).
    { assert (S : serialize (App h [Class t]) = Ok (Some (head_name h ++ "[" :: t ++ ["]"]))).
      { apply ser_one; try reflexivity. cbn in I. destruct I as [<-|[<-|[<-|[]]]]; reflexivity. }
      assert (G : get_schema (App h [Class t]) = Ok tt).
      { cbn in I. destruct I as [<-|[<-|[<-|[]]]]; reflexivity. }
      remember (App h [Class t]) as a eqn:Ea.
      cbn [serialize head_beq andb mapM map_res]. rewrite G, S. cbn [get_schema bind mapM string_of of_option join].
      rewrite <- !app_assoc. reflexivity. }
    rewrite Q. cbn [bind]. unfold deserialize_typing. rewrite text_shape by reflexivity.
    rewrite (has_app "["), (has_cons "["), Ascii.eqb_refl. cbn [orb]. rewrite orb_true_r.
    change (lookup (head_name HDict) typing_from_serialized_name) with (Some HDict). cbn [of_option bind].
    destruct (deserialize_text importable _ _) as [a|e]; cbn [bind]; eauto.
    exists TypeError. reflexivity.
  - intros h l I N F. rewrite Forall_forall in F.
    assert (K : head_beq h HSubclass = false /\ h <> HUnion /\
                forall s, deserialize_simple importable (head_name h) (join (chars ", ") l) s = python_class importable s).
    { cbn in I. repeat (destruct I as [<-|I]; [split; [reflexivity|split; [discriminate|reflexivity]]|]). destruct I. }
    destruct K as (K1 & K2 & K3). rewrite ser_classes by assumption. cbn [bind]. unfold deserialize_typing.
    rewrite text_shape by apply head_open. rewrite join_open by (intros x J; exact (cn_open _ _ (F x J))).
    rewrite K3. apply P. rewrite has_app, has_cons, Ascii.eqb_refl. apply orb_true_r.
Qed.

(** Without arguments, and what is no text. *)
Theorem C84_bare :
  back (App HList []) = Ok (App HList [AnyType]) /\ back (App HTuple []) = Ok (App HTuple [AnyType]) /\
  back (App HInstanceOf []) = Ok (App HInstanceOf [AnyType]) /\ back (App HDict []) = Err IndexError /\
  back NoneValue = Err NotImplementedError.
Proof. repeat split. Qed.

(** The older form of builtins in brackets is read. *)
Theorem C84_older : forall h b, In h [HList; HTuple; HInstanceOf] ->
  deserialize_typing importable (Some (head_name h ++ chars "[__builtins__." ++ builtin_name b ++ chars "]"))
  = Ok (App h [Builtin b]).
Proof. intros h b I. cbn in I. destruct I as [<-|[<-|[<-|[]]]]; destruct b; reflexivity. Qed.
End Props.
Print Assumptions C84_back.
Print Assumptions C84_builtin_refuted.
Print Assumptions C84_tuple_refuted.
Print Assumptions C84_other_refuted.
Print Assumptions C84_bare.
Print Assumptions C84_older.
Print Assumptions C84_total.

Definition in_pkg (s : str) : bool := starts_with (chars "pkg.") s && negb (has "[" s).
Definition read (s : string) : res ann := deserialize_typing in_pkg (Some (chars s)).

Example C84_back_example :
  read "List[Dict[pkg.A, pkg.B]]" = Ok (App HList [App HDict [Class (chars "pkg.A"); Class (chars "pkg.B")]]) /\
  readable in_pkg (App HList [App HDict [Class (chars "pkg.A"); Class (chars "pkg.B")]]).
Proof.
  split; [reflexivity|]. apply r_nested; [cbn; auto|].
  apply r_dict; split; try reflexivity; cbn; intuition discriminate.
Qed.
Example C84_refuted_example :
  read "List[int]" = Err ValueError /\ read "Dict[str, pkg.A]" = Err ValueError /\
  read "Tuple[pkg.A, pkg.A]" = Ok (Repeat (Class (chars "pkg.A"))) /\
  read "Tuple[pkg.A, ...]" = Err TypeError /\ read "Tuple[pkg.A, pkg.B]" = Err TypeError.
Proof. repeat split. Qed.
Example C84_bare_example : read "List" = Ok (App HList [AnyType]) /\ read "Tuple[__builtins__.str]" = Ok (App HTuple [Builtin Str]).
Proof. split; reflexivity. Qed.
Example C84_other_example :
  read "Iterator[pkg.A]" = Err AttributeError /\ read "Dict[pkg.A, List[pkg.B]]" = Err AttributeError.
Proof. split; reflexivity. Qed.

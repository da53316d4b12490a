From Coq Require Import Ascii String List Bool Arith Lia.
From Verif Require Import Base AnnotationModel AnnotationProofs OldTypingModel OldTypingSpec.
Import ListNotations.
Open Scope char_scope.
Open Scope list_scope.
Open Scope nat_scope.

Lemma lookup_none_has {B} c (s : str) (l : list (str * B)) :
  has c s = true -> forallb (fun kb => negb (has c (fst kb))) l = true -> lookup s l = None.
Proof.
  intros H F. induction l as [|[k b] l IH]; [reflexivity|]. cbn [forallb fst] in F.
  apply andb_true_iff in F as [Fk F]. cbn [lookup].
  destruct (str_eqb s k) eqn:E; [|auto]. apply str_eqb_eq in E as ->. rewrite H in Fk. discriminate.
Qed.

Lemma lookup_none_in {B} (s : str) (l : list (str * B)) : ~ In s (map fst l) -> lookup s l = None.
Proof.
  intros N. induction l as [|[k b] l IH]; [reflexivity|]. cbn [lookup].
  destruct (str_eqb s k) eqn:E.
  - apply str_eqb_eq in E as ->. exfalso. apply N. left. reflexivity.
  - apply IH. intros I. apply N. right. exact I.
Qed.

Lemma lookup_in {B} (s : str) (l : list (str * B)) b : lookup s l = Some b -> In (s, b) l.
Proof.
  induction l as [|[k c] l IH]; cbn [lookup]; [discriminate|].
  destruct (str_eqb s k) eqn:E; intros H; [|right; auto].
  apply str_eqb_eq in E as ->. injection H as ->. left. reflexivity.
Qed.

Lemma take_open n r : has "[" n = false ->
  take_while (fun c => negb (Ascii.eqb c "[")) (n ++ "[" :: r) = n /\
  drop_while (fun c => negb (Ascii.eqb c "[")) (n ++ "[" :: r) = "[" :: r.
Proof.
  induction n as [|c n IH]; intros H; [split; reflexivity|]. rewrite has_cons in H.
  apply orb_false_iff in H as [Hc H]. rewrite Ascii.eqb_sym in Hc.
  cbn [app take_while drop_while]. rewrite Hc. cbn [negb]. destruct (IH H) as [-> ->]. split; reflexivity.
Qed.

Lemma split_one s : has "," s = false -> split_comma s = [s].
Proof.
  induction s as [|c s IH]; intros H; [reflexivity|]. rewrite has_cons in H.
  apply orb_false_iff in H as [Hc H]. specialize (IH H). cbn [split_comma]. rewrite Ascii.eqb_sym in Hc.
  destruct s as [|d s]; [reflexivity|]. rewrite Hc. cbn [andb]. rewrite IH. reflexivity.
Qed.

Lemma split_app s t : has "," s = false -> split_comma (s ++ "," :: " " :: t) = s :: split_comma t.
Proof.
  induction s as [|c s IH]; intros H; [reflexivity|]. rewrite has_cons in H.
  apply orb_false_iff in H as [Hc H]. specialize (IH H). rewrite Ascii.eqb_sym in Hc.
  cbn [app split_comma].
  destruct (s ++ "," :: " " :: t) as [|d r] eqn:E; [destruct s; discriminate|].
  rewrite Hc. cbn [andb]. rewrite IH. reflexivity.
Qed.

Lemma split_join l : l <> [] -> (forall s, In s l -> has "," s = false) -> split_comma (join (chars ", ") l) = l.
Proof.
  induction l as [|s l IH]; intros N H; [contradiction|].
  destruct l as [|t l].
  - apply split_one, H. left. reflexivity.
  - change (join (chars ", ") (s :: t :: l)) with (s ++ "," :: " " :: join (chars ", ") (t :: l)).
    rewrite split_app by (apply H; left; reflexivity). f_equal. apply IH; [discriminate|].
    intros x I. apply H. right. exact I.
Qed.

Section O.
Variable importable : str -> bool.
Notation class_name := (class_name importable).
Notation python_class := (python_class importable).
Notation type_from_argname := (type_from_argname importable).
Notation text := (deserialize_text importable).

Lemma python_class_ok s : class_name s -> python_class s = Ok (Class s).
Proof.
  intros C. unfold OldTypingModel.python_class.
  rewrite lookup_none_in.
  - unfold class_from_name. rewrite (cn_dot _ _ C).
    destruct (str_eqb s (chars "typing.Any")) eqn:E1.
    { exfalso. apply str_eqb_eq in E1. apply (cn_reserved _ _ C). subst. cbn. auto. }
    destruct (str_eqb s (chars "typing.Type")) eqn:E2.
    { exfalso. apply str_eqb_eq in E2. apply (cn_reserved _ _ C). subst. cbn. auto. }
    rewrite (cn_import _ _ C). reflexivity.
  - intros I. apply (cn_reserved _ _ C). cbn in I |- *. intuition.
Qed.

Lemma argname_ok s : class_name s -> type_from_argname s = Ok (Class s).
Proof.
  intros C. unfold OldTypingModel.type_from_argname. destruct s as [|c s]; [discriminate (cn_dot _ _ C)|].
  destruct (str_eqb (c :: s) (chars "__builtins__")) eqn:E.
  { exfalso. apply str_eqb_eq in E. assert (D := cn_dot _ _ C). rewrite E in D. discriminate. }
  rewrite (cn_builtins _ _ C). cbn [andb]. apply python_class_ok, C.
Qed.

Lemma special_class s : class_name s ->
  lookup s special_names = None \/ lookup s special_names = Some (Class s).
Proof.
  intros C. destruct (lookup s special_names) as [a|] eqn:E; [|auto]. right. f_equal.
  apply lookup_in in E. assert (R := cn_reserved _ _ C). assert (D := cn_dot _ _ C). clear C.
  cbn in R. cbn [special_names In] in E.
  repeat (destruct E as [E|E]; [injection E as <- <-; first [reflexivity | discriminate D | exfalso; apply R; cbn; tauto]|]).
  destruct E.
Qed.

Lemma simple_class s : class_name s -> deserialize_simple importable s [] s = Ok (Class s).
Proof.
  intros C. unfold deserialize_simple.
  assert (D := cn_dot _ _ C).
  assert (E : forall t, has "." (chars t) = false -> str_eqb s (chars t) = false).
  { intros t T. destruct (str_eqb s (chars t)) eqn:E; [|reflexivity]. apply str_eqb_eq in E. subst. congruence. }
  rewrite !E by reflexivity. apply python_class_ok, C.
Qed.

(** A text with brackets. *)
Lemma text_shape fuel n args : has "[" n = false ->
  text (S fuel) (n ++ "[" :: args ++ ["]"]) =
  if has "[" args then
    let* h := of_option KeyError (lookup n typing_from_serialized_name) in
    let* a := text fuel args in make h [a]
  else deserialize_simple importable n args (n ++ "[" :: args ++ ["]"]).
Proof.
  intros N. cbn [deserialize_text].
  assert (H : has "[" (n ++ "[" :: args ++ ["]"]) = true).
  { rewrite has_app, has_cons. rewrite Ascii.eqb_refl. apply orb_true_r. }
  rewrite (lookup_none_has "[" _ special_names H eq_refl), H.
  destruct (take_open n (args ++ ["]"]) N) as [-> ->]. cbn [tl].
  rewrite (before_last_close_app args []) by reflexivity. reflexivity.
Qed.

Lemma head_open h : has "[" (head_name h) = false.
Proof. destruct h; reflexivity. Qed.

Lemma text_one h s fuel : In h [HList; HTuple; HInstanceOf] -> class_name s ->
  text (S fuel) (head_name h ++ "[" :: s ++ ["]"]) = Ok (App h [Class s]).
Proof.
  intros I C. rewrite text_shape by apply head_open. rewrite (cn_open _ _ C).
  cbn in I. destruct I as [<-|[<-|[<-|[]]]]; unfold deserialize_simple;
    cbn [head_name chars list_ascii_of_string str_eqb Ascii.eqb Bool.eqb andb].
  - rewrite argname_ok by exact C. reflexivity.
  - unfold deserialize_tuple_typing. rewrite split_one by apply (cn_comma _ _ C).
    rewrite argname_ok by exact C. reflexivity.
  - rewrite argname_ok by exact C. reflexivity.
Qed.

Lemma text_dict s t fuel : class_name s -> class_name t ->
  text (S fuel) (head_name HDict ++ "[" :: (s ++ chars ", " ++ t) ++ ["]"]) = Ok (App HDict [Class s; Class t]).
Proof.
  intros Cs Ct. rewrite text_shape by apply head_open.
  rewrite !has_app, (cn_open _ _ Cs), (cn_open _ _ Ct). cbn [orb has chars list_ascii_of_string existsb Ascii.eqb Bool.eqb].
  unfold deserialize_simple. cbn [head_name chars list_ascii_of_string str_eqb Ascii.eqb Bool.eqb andb].
  cbn [app]. rewrite split_app by apply (cn_comma _ _ Cs). rewrite split_one by apply (cn_comma _ _ Ct).
  cbn [nth_error of_option bind]. rewrite (argname_ok s Cs). cbn [bind]. rewrite (argname_ok t Ct). reflexivity.
Qed.

Lemma ser_one h a s : head_beq h HSubclass = false -> get_schema a = Ok tt -> serialize a = Ok (Some s) ->
  serialize (App h [a]) = Ok (Some (head_name h ++ "[" :: s ++ ["]"])).
Proof.
  intros H1 G S. cbn [serialize]. rewrite H1.
  assert (U : union_is_default_value [a] = false) by reflexivity. rewrite U, andb_false_r.
  cbn [mapM map_res]. rewrite G, S. reflexivity.
Qed.

Lemma readable_text a : readable importable a ->
  exists s, serialize a = Ok (Some s) /\ get_schema a = Ok tt /\
  (forall h l, a = App h l -> has "[" s = true) /\
  forall fuel, List.length s < fuel -> text fuel s = Ok a.
Proof.
  intros R. induction R as [b| |s C|h s I C|s t Cs Ct|h k l I R IH].
  - exists (builtin_name b). split; [reflexivity|]. split; [reflexivity|]. split; [discriminate|].
    intros [|fuel] L; [lia|]. destruct b; reflexivity.
  - exists (chars "Type"). split; [reflexivity|]. split; [reflexivity|]. split; [discriminate|].
    intros [|fuel] L; [lia|]. reflexivity.
  - exists s. split; [reflexivity|]. split; [reflexivity|]. split; [discriminate|].
    intros [|fuel] L; [lia|]. cbn [deserialize_text].
    destruct (special_class s C) as [-> | ->]; [|reflexivity].
    rewrite (cn_open _ _ C). apply simple_class, C.
  - exists (head_name h ++ "[" :: s ++ ["]"]). split; [|split; [|split]].
    + cbn in I. apply ser_one; try reflexivity. destruct I as [<-|[<-|[<-|[]]]]; reflexivity.
    + cbn in I. destruct I as [<-|[<-|[<-|[]]]]; reflexivity.
    + intros _ _ _. rewrite has_app, has_cons, Ascii.eqb_refl. apply orb_true_r.
    + intros [|fuel] L; [lia|]. apply text_one; assumption.
  - exists (head_name HDict ++ "[" :: (s ++ chars ", " ++ t) ++ ["]"]). split; [|split; [|split]].
    + reflexivity.
    + reflexivity.
    + intros _ _ _. rewrite has_app, has_cons, Ascii.eqb_refl. apply orb_true_r.
    + intros [|fuel] L; [lia|]. apply text_dict; assumption.
  - destruct IH as (s & S & G & B & T). exists (head_name h ++ "[" :: s ++ ["]"]). split; [|split; [|split]].
    + cbn in I. apply ser_one; try assumption. destruct I as [<-|[<-|[<-|[]]]]; reflexivity.
    + cbn in I. destruct I as [<-|[<-|[<-|[]]]]; reflexivity.
    + intros _ _ _. rewrite has_app, has_cons, Ascii.eqb_refl. apply orb_true_r.
    + intros [|fuel] L; [lia|]. rewrite text_shape by apply head_open. rewrite (B k l eq_refl).
      assert (Ls : List.length s < fuel).
      { rewrite app_length in L. cbn [List.length] in L. rewrite app_length in L. lia. }
      rewrite (T fuel Ls).
      cbn in I. destruct I as [<-|[<-|[<-|[]]]]; reflexivity.
Qed.

(** The fuel is enough. *)
Lemma class_fuel s : class_from_name importable s <> Err OutOfFuel.
Proof. unfold class_from_name. repeat match goal with |- context [if ?b then _ else _] => destruct b end; discriminate. Qed.
Lemma python_fuel s : python_class s <> Err OutOfFuel.
Proof. unfold OldTypingModel.python_class. destruct (lookup s builtin_names); [discriminate|apply class_fuel]. Qed.
Lemma argname_fuel s : type_from_argname s <> Err OutOfFuel.
Proof.
  unfold OldTypingModel.type_from_argname. destruct s as [|c s]; [discriminate|]. cbv zeta.
  repeat match goal with |- context [if ?b then _ else _] => destruct b end; try discriminate; apply python_fuel.
Qed.
Lemma tuple_fuel s : deserialize_tuple_typing importable s <> Err OutOfFuel.
Proof.
  assert (A : forall (f : ann -> ann) x, (let* a := type_from_argname x in Ok (f a)) <> Err OutOfFuel).
  { intros f x. pose proof (argname_fuel x) as H. destruct (type_from_argname x); cbn; congruence. }
  unfold deserialize_tuple_typing. destruct (split_comma s) as [|p [|q r]]; try apply A.
  destruct (forallb (str_eqb p) (q :: r)); [apply A|discriminate].
Qed.
Lemma simple_fuel top args s : deserialize_simple importable top args s <> Err OutOfFuel.
Proof.
  unfold deserialize_simple.
  assert (A : forall (f : ann -> ann) x, (let* a := type_from_argname x in Ok (f a)) <> Err OutOfFuel).
  { intros f x. pose proof (argname_fuel x) as H. destruct (type_from_argname x); cbn; congruence. }
  destruct (str_eqb top (chars "List")); [apply A|].
  destruct (str_eqb top (chars "Tuple")); [apply tuple_fuel|].
  destruct (str_eqb top (chars "Dict")).
  - cbv zeta. destruct (nth_error (split_comma args) 0) as [k|]; cbn [of_option bind]; [|discriminate].
    pose proof (argname_fuel k) as H. destruct (type_from_argname k) as [a|e]; cbn [bind]; [|congruence].
    destruct (nth_error (split_comma args) 1) as [v|]; cbn [of_option bind]; [|discriminate]. apply A.
  - destruct (str_eqb top (chars "InstanceOf")); [apply A|apply python_fuel].
Qed.

Lemma before_shorter s b : before_last_close s = Some b -> List.length b < List.length s.
Proof.
  revert b. induction s as [|c s IH]; intros b; cbn [before_last_close]; [discriminate|].
  destruct (before_last_close s) as [g|] eqn:E.
  - intros [= <-]. cbn. specialize (IH g eq_refl). lia.
  - destruct (Ascii.eqb c "]"); intros [= <-]. cbn. lia.
Qed.
Lemma drop_shorter f (s : str) : List.length (drop_while f s) <= List.length s.
Proof. induction s as [|c s IH]; cbn; [lia|]. destruct (f c); cbn in *; lia. Qed.

Lemma text_fuel : forall fuel s, List.length s < fuel -> text fuel s <> Err OutOfFuel.
Proof.
  induction fuel as [|fuel IH]; intros s L; [lia|]. cbn [deserialize_text].
  destruct (lookup s special_names); [discriminate|].
  destruct (has "[" s) eqn:H; [|apply simple_fuel].
  set (rem := tl (drop_while (fun c => negb (Ascii.eqb c "[")) s)).
  set (args := match before_last_close rem with Some b => b | None => rem end).
  destruct (has "[" args); [|apply simple_fuel].
  destruct (lookup _ typing_from_serialized_name) as [h|]; cbn [of_option bind]; [|discriminate].
  assert (La : List.length args < fuel).
  { assert (Lr : List.length rem < fuel).
    { unfold rem. pose proof (drop_shorter (fun c => negb (Ascii.eqb c "[")) s) as D.
      destruct (drop_while (fun c => negb (Ascii.eqb c "[")) s) as [|c r] eqn:E; cbn [tl List.length] in *.
      - destruct s as [|c s]; [discriminate H|]. cbn in L. lia.
      - lia. }
    unfold args. destruct (before_last_close rem) as [b|] eqn:E; [|exact Lr].
    apply before_shorter in E. lia. }
  specialize (IH args La). destruct (text fuel args) as [a|e]; cbn [bind]; [|congruence].
  unfold make. destruct h; cbn; try discriminate.
  unfold make_union. destruct (dedup ann_eqb [] (flatten [a])) as [|? [|]]; discriminate.
Qed.
End O.

(** Annotations are read back from their serialization, and where they are not. *)
From Coq Require Import Ascii String List Bool Arith Lia.
From Verif Require Import Base BaseProofs AnnotationModel AnnotationProofs AnnotationNested.
Import ListNotations.
Open Scope char_scope.
Open Scope list_scope.
Open Scope nat_scope.

(** * Statements *)

(** strictly inside an annotation *)
Inductive inside : ann -> ann -> Prop :=
| inside_arg h args a : In a args -> inside a (App h args)
| inside_repeat a : inside a (Repeat a)
| inside_trans a b c : inside a b -> inside b c -> inside a c.

Definition is_tuple (a : ann) : Prop := (exists args, a = App HTuple args) \/ (exists x, a = Repeat x).

(** A tuple of any length somewhere inside a tuple *)
Definition nested_ellipsis (a : ann) : Prop :=
  exists t r, (t = a \/ inside t a) /\ is_tuple t /\ inside (Repeat r) t.

(** * Facts *)
Lemma inside_inv b a : inside b a ->
  (exists h args c, a = App h args /\ In c args /\ (b = c \/ inside b c)) \/ (exists c, a = Repeat c /\ (b = c \/ inside b c)).
Proof.
  intros H; induction H as [h args a Ha|a|a b c H1 IH1 H2 IH2].
  - left. exists h, args, a. auto.
  - right. exists a; auto.
  - destruct IH2 as [(h & args & d & -> & Hd & [->|Hb])|(d & -> & [->|Hb])].
    + left. exists h, args, d. auto.
    + left. exists h, args, d. split; [reflexivity|]. split; [exact Hd|]. right. eapply inside_trans; eauto.
    + right. exists d. auto.
    + right. exists d. split; [reflexivity|]. right. eapply inside_trans; eauto.
Qed.

Lemma repeats_spec a : repeats a = true <-> exists r, a = Repeat r \/ inside (Repeat r) a.
Proof.
  induction a as [b0|n| | | | |n|h args IH|x IH|l] using ann_ind'; cbn [repeats];
    try (split; [discriminate|]; intros [r [E|H]]; [discriminate|]; apply inside_inv in H as [(? & ? & ? & E & _)|(? & E & _)]; discriminate).
  - rewrite existsb_exists. rewrite Forall_forall in IH. split.
    + intros (a & Ha & Hr). apply (IH a Ha) in Hr as [r [->|Hr]].
      * exists r. right. apply inside_arg, Ha.
      * exists r. right. apply (inside_trans _ a); [exact Hr|apply inside_arg, Ha].
    + intros [r [E|H]]; [discriminate|]. apply inside_inv in H as [(h' & args' & c & E & Hc & Hb)|(c & E & _)]; [|discriminate].
      injection E as <- <-. exists c. split; [exact Hc|]. apply (IH c Hc). exists r. destruct Hb as [<-|Hb]; auto.
  - split; [|reflexivity]. intros _. exists x; auto.
Qed.

Lemma inside_repeats_args h args : existsb repeats args = true <-> exists r, inside (Repeat r) (App h args).
Proof.
  pose proof (repeats_spec (App h args)) as H. cbn [repeats] in H. rewrite H. split; intros [r Hr]; exists r.
  - destruct Hr as [E|Hr]; [discriminate|exact Hr].
  - right; exact Hr.
Qed.

Lemma fine_spec a : fine a = false <-> nested_ellipsis a.
Proof.
  induction a as [b0|n| | | | |n|h args IH|x IH|l] using ann_ind'; cbn [fine];
    try (split; [discriminate|]; intros (t & r & [->|H] & Ht & _);
         [destruct Ht as [[? E]|[? E]]; discriminate
         |apply inside_inv in H as [(? & ? & ? & E & _)|(? & E & _)]; discriminate]).
  - rewrite andb_false_iff. rewrite Forall_forall in IH. split.
    + intros [H|H].
      * destruct (head_beq h HTuple) eqn:E; [|discriminate]. apply head_beq_eq in E; subst h.
        apply negb_false_iff in H. apply (inside_repeats_args HTuple) in H as [r Hr].
        exists (App HTuple args), r. split; [left; reflexivity|]. split; [left; exists args; reflexivity|exact Hr].
      * assert (exists a, In a args /\ fine a = false) as (a & Ha & Hfa).
        { clear - H. induction args as [|a args IHa]; [discriminate|]. cbn [forallb] in H. destruct (fine a) eqn:E.
          - destruct (IHa H) as (b & Hb & Hfb). exists b; split; [right; exact Hb|exact Hfb].
          - exists a; split; [left; reflexivity|exact E]. }
        apply (IH a Ha) in Hfa as (t & r & Ht & Hi & Hr). exists t, r. split; [|auto]. right.
        destruct Ht as [->|Ht]; [apply inside_arg, Ha|]. apply (inside_trans _ a); [exact Ht|apply inside_arg, Ha].
    + intros (t & r & Ht & Hi & Hr). destruct Ht as [->|Ht].
      * left. destruct Hi as [[args' E]|[y E]]; [|discriminate]. injection E as -> _.
        change (head_beq HTuple HTuple) with true. cbn beta iota. apply negb_false_iff, (inside_repeats_args HTuple). exists r; exact Hr.
      * right. apply inside_inv in Ht as [(h' & args' & c & E & Hc & Hb)|(c & E & _)]; [|discriminate]. injection E as <- <-.
        assert (Hf : fine c = false).
        { apply (IH c Hc). exists t, r. split; [destruct Hb; auto|auto]. }
        destruct (forallb fine args) eqn:Ef; [|reflexivity]. rewrite forallb_forall in Ef. rewrite Ef in Hf by exact Hc. discriminate.
  - rewrite negb_false_iff, repeats_spec. split.
    + intros [r Hr]. exists (Repeat x), r. split; [left; reflexivity|]. split; [right; exists x; reflexivity|].
      destruct Hr as [->|Hr]; [apply inside_repeat|]. apply (inside_trans _ x); [exact Hr|apply inside_repeat].
    + intros (t & r & Ht & Hi & Hr).
      assert (Hx : inside (Repeat r) (Repeat x)).
      { destruct Ht as [->|Ht]; [exact Hr|]. apply (inside_trans _ t); assumption. }
      apply inside_inv in Hx as [(? & ? & ? & E & _)|(c & E & Hc)]; [discriminate|]. injection E as <-. exists r.
      destruct Hc as [<-|Hc]; auto.
Qed.

Section Props.
Variable importable : str -> bool.
Notation plain := (plain importable).
Notation deserialize := (deserialize importable).

Lemma spaced_length a : plain a -> List.length (pr [","] a) <= List.length (pr (chars ", ") a).
Proof. intros Hp. rewrite <- (strip_pr importable a Hp). apply remove_length. Qed.

Lemma deserialize_spaced_eq a : plain a ->
  deserialize (Some (pr (chars ", ") a)) = deserialize_str importable (S (List.length (pr (chars ", ") a))) (pr [","] a).
Proof. intros Hp. cbn [AnnotationModel.deserialize]. apply deserialize_spaced, Hp. Qed.

(** ** Literal *)
Lemma in_dedup {A} (eqb : A -> A -> bool) x l : forall seen, In x (dedup eqb seen l) -> In x l.
Proof.
  induction l as [|y l IH]; intros seen H; [destruct H|]. cbn [dedup] in H. destruct (memb eqb y seen); [right; eauto|].
  destruct H as [->|H]; [left; reflexivity|right; eauto].
Qed.
Lemma split_on_has c d s : has d s = false -> forall w, In w (split_on c s) -> has d w = false.
Proof.
  induction s as [|x s IH]; intros H w Hw; cbn [split_on] in Hw.
  - destruct Hw as [<-|[]]; reflexivity.
  - rewrite has_cons in H. apply orb_false_iff in H as [H1 H2]. destruct (Ascii.eqb x c).
    + destruct Hw as [<-|Hw]; [reflexivity|auto].
    + destruct (split_on c s) as [|v vs]; cbn in Hw.
      * destruct Hw as [<-|[]]. rewrite has_cons, H1. reflexivity.
      * destruct Hw as [<-|Hw]; [|apply IH; [exact H2|right; exact Hw]]. rewrite has_cons, H1. apply (IH H2 v). left; reflexivity.
Qed.
Lemma split_on_no c s : forall w, In w (split_on c s) -> has c w = false.
Proof.
  induction s as [|x s IH]; intros w Hw; cbn [split_on] in Hw.
  - destruct Hw as [<-|[]]; reflexivity.
  - destruct (Ascii.eqb x c) eqn:E.
    + destruct Hw as [<-|Hw]; [reflexivity|auto].
    + destruct (split_on c s) as [|v vs]; cbn in Hw.
      * destruct Hw as [<-|[]]. rewrite has_cons, Ascii.eqb_sym, E. reflexivity.
      * destruct Hw as [<-|Hw]; [|apply IH; right; exact Hw]. rewrite has_cons, Ascii.eqb_sym, E. apply (IH v). left; reflexivity.
Qed.
Lemma remove_char_has c d s : has d s = false -> has d (remove_char c s) = false.
Proof. rewrite !has_not. intros H Hin. apply H. unfold remove_char in Hin. apply filter_In in Hin. apply Hin. Qed.
Lemma blc_has d s g : before_last_close s = Some g -> has d s = false -> has d g = false.
Proof.
  revert g; induction s as [|c s IH]; intros g; cbn [before_last_close]; [discriminate|]. rewrite has_cons. intros Hg H.
  apply orb_false_iff in H as [H1 H2]. destruct (before_last_close s) as [g'|].
  - injection Hg as <-. rewrite has_cons, H1. apply IH; auto.
  - destruct (Ascii.eqb c "]"); [|discriminate]. injection Hg as <-. reflexivity.
Qed.
Lemma take_while_no d s : has d (take_while (fun c => negb (Ascii.eqb c d)) s) = false.
Proof.
  induction s as [|c s IH]; [reflexivity|]. cbn [take_while]. destruct (Ascii.eqb c d) eqn:E; [reflexivity|]. cbn [negb].
  rewrite has_cons, Ascii.eqb_sym, E. exact IH.
Qed.

Definition literal_body (values : list str) : str := "'" :: join (chars "', '") values ++ ["'"].
Lemma serialize_enum values : serialize (Enum values) = Ok (Some (chars "Literal" ++ "[" :: literal_body values ++ ["]"])).
Proof.
  cbn [serialize]. do 2 f_equal. unfold literal_body, chars. cbn [list_ascii_of_string app]. do 8 f_equal.
  rewrite <- app_assoc. cbn [app]. reflexivity.
Qed.
Lemma literal_split values : values <> [] ->
  Forall (fun v => has " " v = false /\ has "'" v = false /\ has "," v = false) values ->
  split_on "," (remove_char "'" (remove_char " " (literal_body values))) = values.
Proof.
  intros Hne HF.
  assert (E : remove_char "'" (remove_char " " (literal_body values)) = join [","] values).
  { unfold literal_body. rewrite remove_cons by discriminate. change (remove_char "'" ("'" :: ?s)) with (remove_char "'" s).
    rewrite !remove_app, !remove_join. change (remove_char "'" (remove_char " " ["'"])) with (@nil ascii). rewrite app_nil_r.
    change (remove_char "'" (remove_char " " (chars "', '"))) with [","]. f_equal. rewrite map_map.
    rewrite <- (map_id values) at 2. apply map_ext_in. intros v Hv. rewrite Forall_forall in HF. destruct (HF v Hv) as (H1 & H2 & _).
    rewrite (remove_id " ") by exact H1. apply remove_id, H2. }
  rewrite E. clear E.
  assert (Hno : forall v rest, has "," v = false -> split_on "," (v ++ "," :: rest) = v :: split_on "," rest).
  { intros v rest. induction v as [|c v IH]; intros H; [reflexivity|].
    rewrite has_cons in H. apply orb_false_iff in H as [H1 H2]. cbn [app split_on]. rewrite Ascii.eqb_sym, H1, IH by exact H2. reflexivity. }
  assert (Hlast : forall v, has "," v = false -> split_on "," v = [v]).
  { intros v. induction v as [|c v IH]; intros H; [reflexivity|].
    rewrite has_cons in H. apply orb_false_iff in H as [H1 H2]. cbn [split_on]. rewrite Ascii.eqb_sym, H1, IH by exact H2. reflexivity. }
  induction HF as [|v l (_ & _ & Hc) HF IH]; [congruence|]. cbn [join].
  destruct l as [|w l]; [apply Hlast, Hc|]. cbn [app]. rewrite Hno by exact Hc. f_equal. apply IH. discriminate.
Qed.

(** * C15 *)

(** Read back, unless a tuple has a tuple of any length inside *)
Theorem C15_roundtrip : forall a, plain a -> ~ nested_ellipsis a ->
  exists s, serialize a = Ok (Some s) /\ deserialize (Some s) = Ok a.
Proof.
  intros a Hp Hn. apply roundtrip; [exact Hp|]. destruct (fine a) eqn:E; [reflexivity|]. apply fine_spec in E. contradiction.
Qed.

(** In that case it is never read back ... *)
Theorem C15_nested : forall a, plain a -> nested_ellipsis a ->
  exists s, serialize a = Ok (Some s) /\ deserialize (Some s) <> Ok a.
Proof.
  intros a Hp Hn. exists (pr (chars ", ") a). split; [apply (serialize_plain importable), Hp|].
  rewrite deserialize_spaced_eq by exact Hp. apply not_back; [exact Hp|]. apply fine_spec, Hn.
Qed.

(** ... a tuple of any length is then an error *)
Theorem C15_nested_error : forall x r, plain x -> x = Repeat r \/ inside (Repeat r) x ->
  exists s e, serialize (Repeat x) = Ok (Some s) /\ deserialize (Some s) = Err e.
Proof.
  intros x r Hp Hr. assert (Hpr : plain (Repeat x)) by (apply plain_repeat, Hp). exists (pr (chars ", ") (Repeat x)).
  rewrite (serialize_plain importable) by exact Hpr. rewrite deserialize_spaced_eq by exact Hpr.
  destruct (repeat_nested importable (S (List.length (pr (chars ", ") (Repeat x)))) x Hp) as [e E].
  - apply repeats_spec. exists r; exact Hr.
  - exists e; auto.
Qed.

(** Annotations that are read back have distinct serializations *)
Theorem C15_distinct : forall a b, plain a -> plain b -> ~ nested_ellipsis a -> ~ nested_ellipsis b ->
  serialize a = serialize b -> a = b.
Proof.
  intros a b Ha Hb Hna Hnb E. destruct (C15_roundtrip a Ha Hna) as (s & H1 & H2).
  destruct (C15_roundtrip b Hb Hnb) as (t & H3 & H4). rewrite H1, H3 in E. injection E as ->. rewrite H4 in H2. congruence.
Qed.

(** Optional is not written, and None with a type after it hides that type *)
Theorem C15_optional : forall a, plain a ->
  serialize (App HUnion [a; NoneType]) = serialize a /\
  serialize (App HUnion [NoneType; a]) = Ok (Some (chars "typing.Type")) /\
  deserialize (Some (chars "typing.Type")) = Ok BareType.
Proof. intros a Hp. split; [|split; reflexivity]. cbn. inversion Hp; reflexivity. Qed.

(** None is written as None, but as an argument it is an error ... *)
Theorem C15_none : serialize NoneValue = Ok None /\ deserialize None = Ok NoneValue /\
  forall h args, good_head h = true -> In NoneValue args ->
  (h = HUnion -> List.length args <> 2) -> Forall (fun a => a = NoneValue \/ plain a) args ->
  serialize (App h args) = Err TypeError.
Proof.
  split; [reflexivity|split; [reflexivity|]]. intros h args Hh Hin Hu HF. cbn [serialize].
  replace (head_beq h HSubclass) with false by (destruct h; try discriminate; reflexivity).
  replace (head_beq h HUnion && union_is_default_value args) with false.
  2:{ symmetry. destruct (head_beq h HUnion) eqn:E; [|reflexivity]. apply head_beq_eq in E. cbn [andb].
      unfold union_is_default_value. apply Hu in E. apply Nat.eqb_neq in E. rewrite E. reflexivity. }
  destruct args as [|a args]; [destruct Hin|].
  assert (G : mapM get_schema (a :: args) = Ok (map (fun _ => tt) (a :: args))).
  { clear - HF. induction HF as [|x l Hx HF IH]; [reflexivity|]. cbn [mapM map]. rewrite IH.
    destruct Hx as [->|Hx]; [reflexivity|]. inversion Hx as [| | | |h args' Hh| |]; subst; try reflexivity. destruct h; try discriminate; reflexivity. }
  rewrite G. cbn [bind]. rewrite map_res_mapM.
  rewrite (mapM_map _ (fun a => match a with NoneValue => None | _ => Some (pr (chars ", ") a) end)).
  - cbn [bind]. clear - Hin. induction (a :: args) as [|x l IH]; [destruct Hin|]. cbn [map mapM].
    destruct x; cbn [string_of of_option bind]; try reflexivity;
      (destruct Hin as [E|Hin]; [discriminate|]; specialize (IH Hin); destruct (mapM string_of _); [discriminate|injection IH as ->; reflexivity]).
  - rewrite Forall_forall in *. intros x Hx. destruct (HF x Hx) as [->|Hpx]; [reflexivity|].
    rewrite (serialize_plain importable) by exact Hpx. inversion Hpx; reflexivity.
Qed.

(** ... while its type, what typing makes of it there, is read as Type. *)
Theorem C15_none_type_refuted : forall h, In h [HList; HTuple; HInstanceOf; HType; HMethodType; HAttributeType] ->
  exists s, serialize (App h [NoneType]) = Ok (Some s) /\ deserialize (Some s) = Ok (App h [BareType]).
Proof.
  intros h Hh. cbn in Hh. destruct Hh as [<-|[<-|[<-|[<-|[<-|[<-|[]]]]]]]; eexists; (split; reflexivity).
Qed.

(** Iterators are read as lists, variables as Type, views not at all, Subclass is not written *)
Theorem C15_lossy : forall a, plain a -> ~ nested_ellipsis a ->
  (exists s, serialize (App HIterator [a]) = Ok (Some s) /\ deserialize (Some s) = Ok (App HList [a])) /\
  (forall v, exists s, serialize (TypeVariable v) = Ok (Some s) /\ deserialize (Some s) = Ok BareType) /\
  (forall h, In h [HCadViewType; HMarkdownType; HPlotDataType] ->
     exists s, serialize (App h [a]) = Ok (Some s) /\ deserialize (Some s) = Err KeyError) /\
  serialize (App HSubclass [a]) = Err NotImplementedError.
Proof.
  intros a Hp Hn.
  assert (Hs : forall h, head_beq h HSubclass = false -> head_beq h HUnion = false ->
    serialize (App h [a]) = Ok (Some (head_name h ++ "[" :: pr (chars ", ") a ++ ["]"]))).
  { intros h H1 H2. cbn [serialize]. rewrite H1, H2. cbn [andb]. rewrite (get_schema_plain importable) by (constructor; auto).
    cbn [bind]. rewrite map_res_mapM. cbn [mapM]. rewrite (serialize_plain importable) by exact Hp. reflexivity. }
  assert (Hnl : has newline (pr (chars ", ") a ++ ["]"]) = false).
  { rewrite has_app, (pr_has importable) by (cbn; auto). reflexivity. }
  split; [|split; [|split]].
  - eexists; split; [apply Hs; reflexivity|]. cbn [AnnotationModel.deserialize].
    rewrite (deserialize_shape importable _ _ _ [] CList); auto; [|apply clean_bracket_free; reflexivity|discriminate].
    rewrite (strip_pr importable) by exact Hp. cbn [from_raw].
    assert (E : extract_args (pr [","] a) = [pr [","] a]).
    { apply (extract_pieces [] _ 0); [constructor|apply (walk_pr importable), Hp|apply (pr_ne importable), Hp|].
      unfold pieces_then. cbn [map concat app]. apply (pr_has importable); cbn; auto. }
    rewrite E. cbn [mapM]. rewrite (back importable); [reflexivity|exact Hp| |].
    + destruct (fine a) eqn:Ef; [reflexivity|]. apply fine_spec in Ef. contradiction.
    + rewrite app_length. cbn [List.length]. rewrite app_length. pose proof (spaced_length a Hp). cbn [List.length]. lia.
  - intros v. eexists; split; reflexivity.
  - intros h Hh. eexists; split; [apply Hs; cbn in Hh; destruct Hh as [<-|[<-|[<-|[]]]]; reflexivity|].
    assert (L : lookup (head_name h) SERIALIZED_TO_SCHEMA_CLASS = None) by (cbn in Hh; destruct Hh as [<-|[<-|[<-|[]]]]; reflexivity).
    cbn [AnnotationModel.deserialize AnnotationModel.deserialize_str].
    rewrite has_app, has_cons. change (Ascii.eqb "[" "[") with true. cbn [orb]. rewrite orb_true_r.
    rewrite regexp_some; [|apply clean_bracket_free, head_name_clean|exact Hnl|reflexivity]. cbn [of_option bind fst]. rewrite L. reflexivity.
  - reflexivity.
Qed.

(** A Literal is read back exactly when its values have no space, quote, comma or end of line *)
Theorem C15_literal : forall values, values <> [] -> NoDup values ->
  exists s, serialize (Enum values) = Ok (Some s) /\
    (deserialize (Some s) = Ok (Enum values) <->
     forall v c, In v values -> In c [" "; "'"; ","; newline] -> ~ In c v).
Proof.
  intros values Hne Hnd. eexists; split; [apply serialize_enum|]. cbn [AnnotationModel.deserialize]. split.
  - intros H v c Hv Hc. rewrite <- has_not.
    cbn [AnnotationModel.deserialize_str] in H. rewrite has_app, has_cons in H. change (Ascii.eqb "[" "[") with true in H.
    cbn [orb] in H. rewrite orb_true_r in H.
    assert (Hbf : bracket_free (chars "Literal")) by (split; reflexivity).
    destruct (regexp _) as [[n g]|] eqn:Er; [|discriminate]. cbn [of_option bind fst] in H.
    assert (Hg : n = chars "Literal" /\ has newline g = false).
    { unfold regexp in Er. destruct (take_drop_name (chars "Literal") (literal_body values ++ ["]"]) Hbf) as [E1 E2].
      rewrite E1, E2 in Er. change (Ascii.eqb "[" "[") with true in Er. cbn beta iota in Er.
      destruct (before_last_close _) as [g'|] eqn:Eb; [|discriminate]. injection Er as <- <-. split; [reflexivity|].
      eapply blc_has; [exact Eb|]. apply take_while_no. }
    destruct Hg as [-> Hnl]. change (lookup (chars "Literal") SERIALIZED_TO_SCHEMA_CLASS) with (Some CEnum) in H. cbn [of_option bind] in H.
    unfold annotation_from_serialized, raw_args in H. rewrite Er in H.
    rewrite !has_app, !has_cons, !has_app, !has_cons in H. change (Ascii.eqb "[" "[") with true in H. change (Ascii.eqb "]" "]") with true in H.
    cbn [orb] in H. rewrite !orb_true_r in H. cbn [andb of_option bind snd] in H. injection H as H.
    rewrite <- H in Hv. apply in_dedup in Hv. cbn [In] in Hc. destruct Hc as [<-|[<-|[<-|[<-|[]]]]].
    + eapply split_on_has; [|exact Hv]. apply remove_char_has, remove_no.
    + eapply split_on_has; [|exact Hv]. apply remove_no.
    + eapply split_on_no; exact Hv.
    + eapply split_on_has; [|exact Hv]. apply remove_char_has, remove_char_has, Hnl.
  - intros H. assert (HF : forall c, In c [" "; "'"; ","; newline] -> Forall (fun v => has c v = false) values).
    { intros c Hc. apply Forall_forall. intros v Hv. apply has_not. apply H; assumption. }
    rewrite (deserialize_shape importable _ (chars "Literal") (literal_body values) [] CEnum); try reflexivity.
    + cbn [from_raw]. rewrite literal_split; [|exact Hne|].
      * rewrite (dedup_id str_eqb str_eqb_eq) by (auto; intros x _ []). reflexivity.
      * apply Forall_forall. intros v Hv. repeat split; apply has_not; apply H; cbn; auto.
    + split; reflexivity.
    + unfold literal_body. rewrite has_app, has_cons, has_app, join_has; [reflexivity|reflexivity|apply HF; cbn; auto].
    + discriminate.
Qed.

(** Deserialization always ends *)
Theorem C15_total : forall s, deserialize s <> Err OutOfFuel.
Proof. intros [s|]; cbn [AnnotationModel.deserialize]; [|discriminate]. apply enough_fuel. lia. Qed.
End Props.

(** Arguments are separated at the first level only: whatever the arguments, as long as their
    brackets match and their commas are between brackets *)
Theorem C15_extract_args : forall parts, parts <> [] ->
  Forall (fun p => walk 0 p = Some 0 /\ p <> [] /\ has " " p = false) parts ->
  extract_args (join (chars ", ") parts) = parts.
Proof.
  intros parts Hne HF. rewrite <- (extract_join parts Hne HF) at 2. unfold extract_args. f_equal.
  rewrite !remove_join. f_equal.
Qed.

(** No error, another annotation: Tuple[List[str], Tuple[int, ...]] is read as Tuple[List[str], ...] *)
Theorem C15_silent_refuted : exists a s,
  serialize a = Ok (Some s) /\
  a = App HTuple [App HList [Builtin Str]; Repeat (Builtin Int)] /\
  deserialize (fun _ => false) (Some s) = Ok (Repeat (App HList [Builtin Str])).
Proof. eexists; eexists; split; [|split; [reflexivity|]]; reflexivity. Qed.

Print Assumptions C15_roundtrip.
Print Assumptions C15_nested.
Print Assumptions C15_nested_error.
Print Assumptions C15_distinct.
Print Assumptions C15_optional.
Print Assumptions C15_none.
Print Assumptions C15_none_type_refuted.
Print Assumptions C15_lossy.
Print Assumptions C15_literal.
Print Assumptions C15_total.
Print Assumptions C15_extract_args.
Print Assumptions C15_silent_refuted.

(** Dict[str, List[Union[pkg.mod.C, Tuple[float, ...]]]] *)
Definition example_importable (s : str) : bool := str_eqb s (chars "pkg.mod.C").
Definition example_annotation : ann :=
  App HDict [Builtin Str; App HList [App HUnion [Class (chars "pkg.mod.C"); Repeat (Builtin Float)]]].
Example example_serialized :
  serialize example_annotation = Ok (Some (chars "Dict[str, List[Union[pkg.mod.C, Tuple[float, ...]]]]")).
Proof. reflexivity. Qed.
Example example_back :
  deserialize example_importable (Some (chars "Dict[str, List[Union[pkg.mod.C, Tuple[float, ...]]]]")) = Ok example_annotation.
Proof. reflexivity. Qed.
Example example_plain : plain example_importable example_annotation.
Proof.
  apply plain_app; [reflexivity|reflexivity|discriminate|]. constructor; [apply plain_builtin|]. constructor; [|constructor].
  apply plain_app; [reflexivity|reflexivity|discriminate|]. constructor; [|constructor].
  apply plain_app; [reflexivity|cbn; lia| |].
  - intros _. split; [|repeat constructor]. constructor; [intros [E|[]]; discriminate|]. constructor; [intros []|constructor].
  - constructor; [|constructor; [apply plain_repeat, plain_builtin|constructor]].
    apply plain_class. repeat split; try reflexivity; discriminate.
Qed.
Example example_no_nested : ~ nested_ellipsis example_annotation.
Proof. intros H. apply fine_spec in H. discriminate. Qed.
Example example_nested : nested_ellipsis (App HList [App HTuple [Builtin Str; App HList [Repeat (Builtin Int)]]]).
Proof. apply fine_spec. reflexivity. Qed.
(** An end of line cuts the Literal *)
Example example_newline :
  deserialize (fun _ => false) (Some (chars "Literal['a" ++ newline :: chars "b']")) = Err AttributeError.
Proof. reflexivity. Qed.

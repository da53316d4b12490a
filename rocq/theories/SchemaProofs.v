(** Lemmas on the forms of annotations. *)
From Coq Require Import ZArith QArith Ascii String List Bool Arith Lia.
From Verif Require Import Base BaseProofs AnnotationModel AnnotationProofs DocstringModel PyValue SchemaModel SchemaSpec.
Import ListNotations.
Local Open Scope string_scope.
Local Open Scope list_scope.
Local Open Scope nat_scope.

Lemma bind_ok {A B} (r : res A) (f : A -> res B) y : bind r f = Ok y -> exists x, r = Ok x /\ f x = Ok y.
Proof. destruct r; cbn; [eauto|discriminate]. Qed.
Ltac binds H := repeat (apply bind_ok in H; let x := fresh "x" in let E := fresh "E" in destruct H as (x & E & H)).

(** * Dictionaries *)
Lemma lookup_app {A} k (d e : list (key * A)) :
  PyValue.lookup k (d ++ e) = match PyValue.lookup k d with Some x => Some x | None => PyValue.lookup k e end.
Proof. induction d as [|[j x] d IH]; cbn; [reflexivity|]. destruct (key_eqb k j); [reflexivity|exact IH]. Qed.
Lemma lookup_update k d items :
  PyValue.lookup k (update d items) = match PyValue.lookup k (rev items) with Some x => Some x | None => PyValue.lookup k d end.
Proof.
  unfold update. revert d; induction items as [|[j x] items IH]; intros d; [reflexivity|]. cbn [fold_left fst snd rev].
  rewrite IH, lookup_app. destruct (PyValue.lookup k (rev items)); [reflexivity|]. cbn [PyValue.lookup].
  destruct (key_eqb k j) eqn:E; [apply key_eqb_eq in E; subst; apply lookup_set_same|].
  apply lookup_set_other. apply key_eqb_neq, E.
Qed.

Lemma update_app d i1 i2 : update (update d i1) i2 = update d (i1 ++ i2).
Proof. unfold update. rewrite fold_left_app. reflexivity. Qed.

Definition json_items (d : list (key * val)) : Prop := Forall (fun kv => (exists s, fst kv = KStr s) /\ json (snd kv)) d.
Lemma json_set k v d : json_items d -> json v -> json_items (set_key (KStr k) v d).
Proof.
  intros H Hv. induction d as [|[j x] d IH]; cbn [set_key]; [repeat constructor; cbn; eauto|]. inversion H; subst.
  destruct (key_eqb (KStr k) j); constructor; auto; try (apply IH; assumption). cbn in *. split; [eauto; tauto|exact Hv].
Qed.
Lemma json_update d items : json_items d -> json_items items -> json_items (update d items).
Proof.
  unfold update. intros H Hi. revert d H. induction items as [|[k v] items IH]; intros d H; [exact H|]. inversion Hi as [|? ? [[s Es] Hv] Hi']; subst.
  cbn in Es, Hv |- *. subst k. apply IH; [exact Hi'|]. apply json_set; assumption.
Qed.

(** * Optional *)
Lemma optional_iff args : union_is_default_value args = true <->
  (exists x, args = [x; NoneType]) \/ (exists x, args = [NoneType; x]).
Proof.
  unfold union_is_default_value. rewrite andb_true_iff, Nat.eqb_eq. split.
  - intros [L E]. destruct args as [|x [|y [|z l]]]; try discriminate. cbn in E.
    destruct x, y; try discriminate; eauto.
  - intros [[x ->]|[x ->]]; cbn; split; try reflexivity; destruct x; reflexivity.
Qed.
Lemma optional_false args : union_is_default_value args = false <-> forall x, args <> [x; NoneType] /\ args <> [NoneType; x].
Proof.
  destruct (union_is_default_value args) eqn:E.
  - apply optional_iff in E. split; [discriminate|]. intros H. destruct E as [[x ->]|[x ->]]; destruct (H x); congruence.
  - split; [|reflexivity]. intros _ x. split; intros ->; cbn in E; destruct x; discriminate.
Qed.
Lemma head_beq_iff h k : head_beq h k = true <-> h = k.
Proof. split; [apply internal_head_dec_bl|apply internal_head_dec_lb]. Qed.
Lemma head_beq_false h k : head_beq h k = false <-> h <> k.
Proof. destruct (head_beq h k) eqn:E; [apply head_beq_iff in E|]; split; try congruence. intros _ Q. apply head_beq_iff in Q. congruence. Qed.

Section Forms.
Variable kind : str -> ckind.
Variable build_class_schema : str -> res unit.
Variable object_to_dict : val -> res val.
Notation get_schema := (get_schema kind).
Notation serialized := (serialized kind).
Notation file_related := (file_related kind).
Notation default_value := (default_value kind build_class_schema object_to_dict).
Notation base_dict := (base_dict kind build_class_schema object_to_dict).
Notation to_dict := (to_dict kind build_class_schema object_to_dict).
Notation written := (written kind).
Notation described := (described kind).
Definition class_ok c := build_class_schema c = Ok tt.
Definition dict_of v w := object_to_dict v = Ok w.
Notation default_shown := (default_shown kind class_ok dict_of).
Notation common := (common kind class_ok dict_of).
Notation form := (form kind class_ok dict_of).

Lemma written_schema a : written a -> get_schema a = Ok tt.
Proof. intros H; inversion H; subst; cbn; try reflexivity. - destruct (kind c); congruence || reflexivity. - destruct h; congruence || reflexivity. Qed.

Lemma mapM_schema args : Forall written args -> exists l, mapM get_schema args = Ok l.
Proof.
  intros H; induction H as [|a l Ha Hl [r IH]]; [exists []; reflexivity|]. cbn [mapM]. rewrite written_schema, IH by exact Ha.
  eexists; reflexivity.
Qed.

(** Written annotations are those that serialize_annotation writes. *)
Lemma written_serialized a : written a -> exists s, serialized a = Ok (Some s) /\ serialize a = Ok (Some s).
Proof.
  induction a as [b|c| | | | |n|h args IH|x IH|l] using ann_ind'; intros Hw; inversion Hw; subst;
    try (eexists; split; reflexivity).
  - cbn. destruct (kind c); try congruence; eexists; split; reflexivity.
  - inversion IH; subst. destruct (H2 H0) as (s & E1 & E2). exists s. cbn. destruct x; cbn in *; auto.
  - assert (Hs : head_beq h HSubclass = false) by (apply head_beq_false; assumption).
    assert (Hu : head_beq h HUnion && union_is_default_value args = false).
    { destruct (head_beq h HUnion) eqn:E; [|reflexivity]. cbn. apply optional_false. apply H2. apply head_beq_iff, E. }
    cbn [SchemaModel.serialized serialize]. rewrite Hs, Hu. destruct args as [|a0 args0] eqn:Ea; [eexists; split; reflexivity|].
    rewrite <- Ea in *. clear a0 args0 Ea.
    assert (Hp : exists parts, map_res serialized args = Ok (map Some parts) /\ map_res serialize args = Ok (map Some parts)).
    { clear -IH H3. induction H3 as [|a l Ha Hl IHl]; [exists []; split; reflexivity|]. inversion IH; subst.
      destruct (H1 Ha) as (s & E1 & E2). destruct (IHl H2) as (parts & P1 & P2). exists (s :: parts). cbn [map_res].
      rewrite E1, E2, P1, P2. split; reflexivity. }
    destruct Hp as (parts & P1 & P2). rewrite P1, P2.
    destruct (mapM_schema args H3) as [u ->].
    assert (Hg : exists u, mapM AnnotationModel.get_schema args = Ok u).
    { clear -H3. induction H3 as [|a l Ha Hl [r IH]]; [exists []; reflexivity|]. cbn [mapM].
      replace (AnnotationModel.get_schema a) with (@Ok unit tt); [rewrite IH; eexists; reflexivity|].
      inversion Ha; subst; try reflexivity. destruct h; try reflexivity. congruence. }
    destruct Hg as [u' ->]. cbn [bind].
    assert (Hm : mapM string_of (map Some parts) = Ok parts).
    { clear. induction parts as [|p l IH]; [reflexivity|]. cbn [map mapM string_of of_option bind]. rewrite IH. reflexivity. }
    rewrite Hm. cbn [bind]. eexists; split; reflexivity.
  - destruct (IH H0) as (s & E1 & E2). cbn [SchemaModel.serialized serialize]. rewrite written_schema, E1, E2 by exact H0.
    replace (AnnotationModel.get_schema x) with (@Ok unit tt); [eexists; split; reflexivity|].
    inversion H0; subst; try reflexivity. destruct h; try reflexivity. congruence.
Qed.


Lemma get_schema_ann a u : get_schema a = Ok u -> AnnotationModel.get_schema a = Ok u.
Proof. destruct a; cbn; try (intros H; exact H). destruct (kind name); intros H; congruence. Qed.
Lemma mapM_get_schema args l : mapM get_schema args = Ok l -> mapM AnnotationModel.get_schema args = Ok l.
Proof.
  revert l; induction args as [|a args IH]; intros l H; [exact H|]. cbn [mapM] in *. binds H.
  rewrite (get_schema_ann _ _ E), (IH _ E0). exact H.
Qed.

(** What is written is what serialize_annotation writes. *)
Lemma serialized_serialize a s : serialized a = Ok s -> serialize a = Ok s.
Proof.
  revert s. induction a as [b|c| | | | |n|h args IH|x IH|l] using ann_ind'; intros s H; try exact H.
  - cbn in *. destruct (kind c); congruence.
  - cbn [SchemaModel.serialized serialize] in *. destruct (head_beq h HSubclass); [discriminate|].
    destruct (head_beq h HUnion && union_is_default_value args).
    + destruct args as [|x l]; [discriminate|]. inversion IH; auto.
    + destruct args as [|a0 args0] eqn:Ea; [exact H|]. rewrite <- Ea in *. clear a0 args0 Ea. binds H.
      rewrite (mapM_get_schema _ _ E).
      assert (P : map_res serialize args = Ok x0).
      { clear -IH E0. revert x0 E0; induction IH as [|a l Ha Hl IHl]; intros r E; [exact E|]. cbn [map_res] in *. binds E.
        rewrite (Ha _ E0), (IHl _ E1). exact E. }
      rewrite P. cbn [bind]. rewrite E1. exact H.
  - cbn [SchemaModel.serialized serialize] in *. binds H. rewrite (get_schema_ann _ _ E), (IH _ E0). exact H.
Qed.

Lemma serialized_typed a s : typed a -> serialized a = Ok s -> written a.
Proof.
  revert s. induction a as [b|c| | | | |n|h args IH|x IH|l] using ann_ind'; intros s Ht H; inversion Ht; subst; try (constructor; fail).
  - constructor. cbn in H. destruct (kind c); congruence.
  - cbn [SchemaModel.serialized] in *. destruct (head_beq h HSubclass) eqn:Es; [discriminate|]. apply head_beq_false in Es.
    destruct (head_beq h HUnion && union_is_default_value args) eqn:Eu.
    + apply andb_true_iff in Eu as [Eh Eu]. apply head_beq_iff in Eh; subst h.
      apply optional_iff in Eu as [[x ->]|[x ->]]; [|constructor]. inversion IH; inversion H1; subst. constructor. eauto.
    + constructor; [exact Es| |].
      * intros -> . apply optional_false. rewrite (proj2 (head_beq_iff HUnion HUnion) eq_refl) in Eu. exact Eu.
      * destruct args as [|a0 args0] eqn:Ea; [constructor|]. rewrite <- Ea in *. clear a0 args0 Ea. binds H.
        clear -IH E0 H1. revert x0 E0. induction IH as [|a l Ha Hl IHl]; intros r E; [constructor|]. cbn [map_res] in E. binds E.
        inversion H1; subst. constructor; eauto.
  - constructor. cbn [SchemaModel.serialized] in H. binds H. eauto.
Qed.

(** * Default values *)
Lemma undefined_place at_ : p_default (place_of at_) = if has_default (a_default at_) then Some (a_default at_) else None.
Proof.
  unfold place_of, has_default, is_undefined. cbn [p_default]. destruct (a_default at_); try reflexivity. destruct attrs; [|reflexivity].
  destruct (String.eqb c "builtins.object"); reflexivity.
Qed.

Lemma object_default_iff d w : has_default d = true ->
  (object_default object_to_dict d = Ok w <-> object_shown dict_of d w).
Proof.
  unfold has_default. intros Hd. apply negb_true_iff in Hd. unfold object_default. rewrite Hd. split.
  - intros H. destruct d; try discriminate.
    + injection H as <-. apply os_none; reflexivity.
    + eapply os_object; [reflexivity|exact H].
  - intros [->|c attrs w' -> Hw]; [reflexivity|exact Hw].
Qed.

Definition optional (a : ann) : bool := match a with App HUnion args => union_is_default_value args | _ => false end.

Lemma default_value_iff a d w : has_default d = true -> optional a = false ->
  (default_value a d = Ok w <-> default_shown a d w).
Proof.
  intros Hd Ho. assert (Hu : is_undefined d = false) by (apply negb_true_iff, Hd). split.
  - intros H. destruct a as [b|c| | | | |n|h args|x|l]; cbn [SchemaModel.default_value] in H;
      try (rewrite ?Hd in H; injection H as <-; apply ds_same; exact I).
    + destruct (kind c) eqn:K.
      * unfold measure_default in H. rewrite Hu in H. destruct d; try discriminate.
        -- injection H as <-. eapply ds_float; exact K.
        -- binds H. unfold of_option in E. destruct (PyValue.lookup (KStr "value") d) eqn:L; [|discriminate]. injection E as <-.
           destruct v; try discriminate; injection H as <-.
           ++ eapply ds_measure_bool; [exact K|exact L].
           ++ eapply ds_measure_int; [exact K|exact L].
           ++ eapply ds_measure_dict; [exact K|exact L].
        -- destruct attrs as [|[k v] [|? ?]]; try discriminate; destruct k; try discriminate.
           ++ destruct (String.eqb s "value") eqn:Q.
              ** apply String.eqb_eq in Q; subst s. destruct v; try discriminate.
                 destruct (kind (list_ascii_of_string c0)) eqn:K'; try discriminate. injection H as <-. eapply ds_measure; eassumption.
              ** exfalso. repeat (destruct s as [|[[] [] [] [] [] [] [] []] s]; try discriminate).
           ++ exfalso. repeat (destruct s as [|[[] [] [] [] [] [] [] []] s]; try discriminate). destruct v; discriminate.
      * injection H as <-. apply ds_same. auto.
      * binds H. destruct x. apply ds_object; [exists standalone; exact K|exact E|apply object_default_iff; assumption].
      * injection H as <-. apply ds_same. auto.
      * discriminate.
    + unfold class_default in H. rewrite Hu in H. destruct d; try discriminate. injection H as <-. constructor.
    + destruct h; try discriminate;
        try (unfold attribute_type_default in H; rewrite Hu in H; destruct d; try discriminate; apply ds_selector; [cbn; tauto|exact H]);
        try (injection H as <-; apply ds_lost; cbn; tauto).
      * rewrite Hd in H. injection H as <-. apply ds_same; exact I.
      * cbn in Ho. rewrite Ho in H. apply ds_union; [apply optional_false, Ho|apply object_default_iff; assumption].
      * binds H. destruct args as [|a args]; [discriminate|]. destruct a; try discriminate. destruct x. apply ds_instance; [exact E|].
        apply object_default_iff; assumption.
      * binds H. destruct args as [|a args]; [discriminate|]. unfold class_default in H. rewrite Hu in H. destruct d; try discriminate.
        injection H as <-. constructor.
  - intros H; inversion H; subst.
    + destruct a; cbn [SchemaModel.default_value]; rewrite ?Hd; try reflexivity; try contradiction.
      * destruct H0 as [K|K]; rewrite K; reflexivity.
      * destruct h; try contradiction. rewrite ?Hd. reflexivity.
    + cbn in H0. destruct H0 as [<-|[<-|[<-|[]]]]; reflexivity.
    + destruct H0 as [b K]. cbn [SchemaModel.default_value]. rewrite K. unfold class_ok in H1. rewrite H1. apply object_default_iff; assumption.
    + cbn [SchemaModel.default_value]. apply optional_false in H0. rewrite H0. apply object_default_iff; assumption.
    + cbn [SchemaModel.default_value]. unfold class_ok in H0. rewrite H0. apply object_default_iff; assumption.
    + reflexivity.
    + cbn [SchemaModel.default_value]. destruct x; reflexivity.
    + cbn in H0. unfold dict_of in H1.
      assert (E : attribute_type_default kind object_to_dict h args (VObj c attrs) = Ok w) by (unfold attribute_type_default; rewrite Hu; exact H1).
      repeat (destruct H0 as [<-|H0]; [exact E|]). destruct H0.
    + cbn [SchemaModel.default_value]. rewrite H0. reflexivity.
    + cbn [SchemaModel.default_value]. rewrite H0. unfold measure_default. cbn. rewrite H1. reflexivity.
    + cbn [SchemaModel.default_value]. rewrite H0. unfold measure_default. cbn. unfold shows in H1. rewrite H1. reflexivity.
    + cbn [SchemaModel.default_value]. rewrite H0. unfold measure_default. cbn. unfold shows in H1. rewrite H1. reflexivity.
    + cbn [SchemaModel.default_value]. rewrite H0. unfold measure_default. cbn. unfold shows in H1. rewrite H1. reflexivity.
Qed.

(** * Forms *)
Local Opaque update.
Lemma base_dict_ok a at_ d : base_dict a at_ = Ok d -> exists s f,
  serialized a = Ok s /\ form_type kind a = Ok f /\
  let base := [(KStr "pythonTyping", match s with Some s => VStr (text s) | None => VNone end);
                (KStr "type", VNone); (KStr "formType", VStr f)] ++ attribute_dict at_ in
  (has_default (a_default at_) = false /\ d = base \/
   has_default (a_default at_) = true /\ exists w, default_value a (a_default at_) = Ok w /\ d = base ++ [(KStr "defaultValue", w)]).
Proof.
  unfold SchemaModel.base_dict. intros H. binds H. exists x, x0. split; [exact E|]. split; [exact E0|]. cbv zeta.
  destruct (has_default (a_default at_)) eqn:Hd.
  - right. binds H. injection H as <-. split; [reflexivity|]. eexists; split; [eassumption|reflexivity].
  - left. injection H as <-. split; reflexivity.
Qed.

Definition quiet (items : list (key * val)) : Prop :=
  Forall (fun k => PyValue.lookup (KStr k) (rev items) = None) ["pythonTyping"; "key"; "title"; "editable"; "description"; "defaultValue"].

Lemma common_update a at_ d items t f : base_dict a at_ = Ok d -> optional a = false -> quiet items ->
  match PyValue.lookup (KStr "type") (rev items) with Some t' => t' | None => VNone end = t ->
  (match PyValue.lookup (KStr "formType") (rev items) with Some f' => Ok f' | None => let* f' := form_type kind a in Ok (VStr f') end) = Ok (VStr f) ->
  common a (place_of at_) (update d items) t f.
Proof.
  intros Hb Ho Hq Ht Hf. destruct (base_dict_ok _ _ _ Hb) as (s & f0 & Es & Ef & Hd). cbv zeta in Hd. rewrite Ef in Hf. cbn [bind] in Hf.
  assert (Hsh : forall k v, PyValue.lookup (KStr k) d = Some v -> PyValue.lookup (KStr k) (rev items) = None -> shows (update d items) k v).
  { intros k v H1 H2. unfold shows. rewrite lookup_update, H2. exact H1. }
  assert (Q : forall k, In k ["pythonTyping"; "key"; "title"; "editable"; "description"; "defaultValue"] ->
                PyValue.lookup (KStr k) (rev items) = None) by (unfold quiet in Hq; rewrite Forall_forall in Hq; exact Hq).
  assert (L : PyValue.lookup (KStr "pythonTyping") d = Some (match s with Some s => VStr (text s) | None => VNone end) /\
              PyValue.lookup (KStr "type") d = Some VNone /\ PyValue.lookup (KStr "formType") d = Some (VStr f0) /\
              PyValue.lookup (KStr "key") d = Some (VStr (a_name at_)) /\ PyValue.lookup (KStr "title") d = Some (VStr (title at_)) /\
              PyValue.lookup (KStr "editable") d = Some (VBool (a_editable at_)) /\
              PyValue.lookup (KStr "description") d = Some (VStr (a_desc at_)))
    by (destruct Hd as [[_ ->]|[_ (w & _ & ->)]]; repeat split).
  destruct L as (L1 & L2 & L3 & L4 & L5 & L6 & L7).
  unfold SchemaSpec.common. split; [|repeat split].
  - exists s. split; [apply serialized_serialize, Es|]. apply Hsh; [exact L1|apply Q; cbn; tauto].
  - apply Hsh; [exact L4|apply Q; cbn; tauto].
  - apply Hsh; [exact L5|apply Q; cbn; tauto].
  - apply Hsh; [exact L6|apply Q; cbn; tauto].
  - apply Hsh; [exact L7|apply Q; cbn; tauto].
  - unfold shows. rewrite lookup_update. destruct (PyValue.lookup (KStr "type") (rev items)); [congruence|]. rewrite L2. congruence.
  - unfold shows. rewrite lookup_update. destruct (PyValue.lookup (KStr "formType") (rev items)); [congruence|]. rewrite L3. congruence.
  - rewrite undefined_place. destruct Hd as [[Hd ->]|[Hd (w & Ew & ->)]]; rewrite Hd.
    + unfold hides. rewrite lookup_update, Q by (cbn; tauto). reflexivity.
    + exists w. split; [apply default_value_iff; assumption|]. apply Hsh; [reflexivity|apply Q; cbn; tauto].
Qed.

Lemma place_sub at_ i : place_of (sub_attribute at_ i) = inside (place_of at_) i.
Proof.
  unfold place_of, sub_attribute, inside, title. cbn [a_name a_default a_title a_editable a_desc p_key p_title p_editable p_description p_default].
  f_equal. unfold str_nat. destruct (String.eqb _ "") eqn:E; [|reflexivity]. exfalso. apply String.eqb_eq in E.
  destruct (if String.eqb (a_title at_) "" then _ else _); discriminate.
Qed.

Lemma map_indexed_ok {A B} (f : nat -> A -> res B) l k r : map_indexed f k l = Ok r ->
  List.length r = List.length l /\ forall i x y, nth_error l i = Some x -> nth_error r i = Some y -> f (k + i) x = Ok y.
Proof.
  revert k r; induction l as [|a l IH]; intros k r H; cbn [map_indexed] in H.
  - injection H as <-. split; [reflexivity|]. intros [|i]; discriminate.
  - binds H. injection H as <-. destruct (IH _ _ E0) as [H1 H2]. split; [cbn; congruence|]. intros [|i] b y Hb Hy; cbn in Hb, Hy.
    + injection Hb as <-. injection Hy as <-. rewrite Nat.add_0_r. exact E.
    + replace (k + S i) with (S k + i) by lia. eauto.
Qed.

Lemma mapM_full_class args cs : mapM full_class args = Ok cs -> forall bs, mapM (standalone kind) args = Ok bs ->
  exists names, args = map Class names /\ cs = map text names /\ Forall2 (fun c b => kind c = KDessia b) names bs.
Proof.
  revert cs; induction args as [|a args IH]; intros cs H bs Hb; cbn [mapM] in *.
  - injection H as <-. injection Hb as <-. exists []. repeat split. constructor.
  - binds H. binds Hb. injection H as <-. injection Hb as <-. destruct (IH _ E0 _ E2) as (names & -> & -> & F).
    destruct a; try discriminate. cbn in E, E1. injection E as <-. destruct (kind name) eqn:K; try discriminate. injection E1 as <-.
    exists (name :: names). repeat split. constructor; assumption.
Qed.

Lemma mixed_eq bs : (if forallb (fun b => b) bs then VBool true else if negb (existsb (fun b => b) bs) then VBool false else VNone) = mixed bs.
Proof.
  unfold mixed. replace (negb (existsb (fun b => b) bs)) with (forallb negb bs); [reflexivity|].
  induction bs as [|b bs IH]; [reflexivity|]. cbn. rewrite IH, negb_orb. reflexivity.
Qed.

Ltac by_common := eapply common_update; [eassumption|try reflexivity; try assumption|repeat constructor|reflexivity|try reflexivity].
Ltac look := unfold shows, hides; first [rewrite lookup_update; reflexivity | reflexivity].

(** The form of Type[x] inside a selector *)
Lemma class_schema_ok x rest at_ v : class_schema_dict kind build_class_schema object_to_dict (x :: rest) at_ = Ok v -> exists d, v = VDict d /\
  shows d "key" (VStr (a_name at_ ++ "/class")) /\ shows d "title" (VStr "Class") /\ shows d "editable" (VBool (a_editable at_)) /\
  shows d "formType" (VStr "class") /\ a_class d /\
  (x = BareType /\ hides d "defaultValue" \/ exists n, named_class x n /\ shows d "defaultValue" (VStr n)).
Proof.
  unfold class_schema_dict. intros H. binds H. injection H as <-. eexists; split; [reflexivity|].
  cbn [firstn] in E1. pose proof E1 as Eb. apply base_dict_ok in Eb as (s & f & Es & Ef & Hd). cbn in Ef. injection Ef as <-. cbv zeta in Hd.
  cbn [a_default] in Hd.
  assert (Hx : x = BareType /\ x1 = UNDEFINED \/ exists n, full_class x = Ok n /\ x1 = VClass n true).
  { clear -E E0. destruct x; cbn [class_argument] in E; injection E as <-; try (injection E0 as <-; left; split; reflexivity);
      binds E0; injection E0 as <-; right; eexists; split; try eassumption; reflexivity. }
  assert (N : forall n, full_class x = Ok n -> named_class x n).
  { intros n Q. destruct x; cbn in Q; try discriminate; injection Q as <-; try reflexivity. destruct b; reflexivity. }
  destruct Hx as [[-> ->]|(n & Hn & ->)].
  - destruct Hd as [[_ ->]|[Q _]]; [|discriminate Q]. repeat split; try look. left. split; [reflexivity|look].
  - destruct Hd as [[Q _]|[_ (w & Ew & ->)]]; [discriminate Q|].
    assert (w = VStr n) as ->.
    { cbn in Ew. destruct x; cbn in Ew; try discriminate Hn; injection Ew as <-; reflexivity. }
    repeat split; try look. right. exists n. split; [apply N, Hn|look].
Qed.

Lemma any_res_iff {A} (P : A -> Prop) (f : A -> res bool) l b : Forall (fun x => forall b, f x = Ok b -> (b = true <-> P x)) l ->
  any_res f l = Ok b -> (b = true <-> exists x, In x l /\ P x).
Proof.
  intros HP. induction HP as [|x l Hx HP IH]; cbn [any_res]; intros H.
  - injection H as <-. split; [discriminate|]. intros (x & [] & _).
  - apply bind_ok in H as (c & Ec & H). apply Hx in Ec. destruct c.
    + injection H as <-. split; [|reflexivity]. intros _. exists x. split; [left; reflexivity|apply Ec; reflexivity].
    + rewrite (IH H). split; [intros (y & Hy & E); exists y; split; [right; exact Hy|exact E]|].
      intros (y & [<-|Hy] & E); [apply Ec in E; discriminate|]. eauto.
Qed.
Lemma file_related_iff a : forall b, file_related a = Ok b -> (b = true <-> of_files kind a).
Proof.
  assert (Hall : (forall b, file_related a = Ok b -> (b = true <-> of_files kind a)) /\
    match a with App _ l => Forall (fun x => forall b, file_related x = Ok b -> (b = true <-> of_files kind x)) l | _ => True end); [|apply Hall].
  induction a as [b0|c| | | | |n|h args IH|x IH|l] using ann_ind';
    try (split; [|exact I]; intros b H; cbn [SchemaModel.file_related] in H; injection H as <-; split; [discriminate|intros Q; inversion Q]; fail).
  - split; [|exact I]. intros b H; cbn [SchemaModel.file_related] in H. injection H as <-.
    split; [|intros Q; inversion Q as [? K| | |]; rewrite K; reflexivity]. intros Q. apply of_class. destruct (kind c); congruence.
  - assert (Hone : Forall (fun x => forall b, file_related x = Ok b -> (b = true <-> of_files kind x)) args).
    { rewrite Forall_forall in *. intros x Hx. apply (IH x Hx). }
    split; [|exact Hone]. intros b H; cbn [SchemaModel.file_related] in H.
    destruct (head_beq h HUnion && union_is_default_value args) eqn:E.
    + apply andb_true_iff in E as [Eh Eu]. apply head_beq_iff in Eh; subst h. apply optional_iff in Eu as [[x ->]|[x ->]].
      * assert (Hother : (forall h l, x <> App h l) -> of_files kind (App HUnion [x; NoneType]) -> False).
        { intros N Q. inversion Q as [| |? ? ? N' _ _|h l ? _ _ Ex]; subst; [destruct (N' eq_refl x); congruence|]. eapply N; reflexivity. }
        destruct x as [| | | | | | |h l|y|[|]]; try (injection H as <-; split; [discriminate|intros Q; exfalso; apply Hother; [discriminate|exact Q]]).
        -- apply bind_ok in H as (u & _ & H). apply Forall_inv in IH. destruct IH as [_ IH]. rewrite (any_res_iff _ _ _ _ IH H). split.
           ++ intros (y & Hy & Ey). apply of_optional with (x := y); assumption.
           ++ intros Q. inversion Q as [| |? ? ? N' _ _|h' l' y Hy Qy]; subst; [destruct (N' eq_refl (App h l)); congruence|]. eauto.
        -- apply bind_ok in H as (u & _ & H). discriminate.
        -- discriminate.
      * injection H as <-. split; [discriminate|]. intros Q. inversion Q as [| |? ? ? N' _ _|]; subst. destruct (N' eq_refl x). congruence.
    + apply bind_ok in H as (u & _ & H). rewrite (any_res_iff _ _ _ _ Hone H). split.
      * intros (y & Hy & Ey). apply of_argument with (x := y); [|assumption|assumption]. intros ->. apply optional_false. cbn in E. exact E.
      * intros Q. inversion Q as [| |? ? y _ Hy Qy|h' l' y Hy Qy]; subst; [eauto|]. cbn in E. discriminate.
  - split; [|exact I]. destruct IH as [IH _]. intros b H; cbn [SchemaModel.file_related] in H. apply bind_ok in H as (u & _ & H). rewrite (IH _ H).
    split; [apply of_repeat|]. intros Q. inversion Q; assumption.
Qed.
Lemma to_dict_form a : forall at_ v, to_dict a at_ = Ok v -> form a (place_of at_) v.
Proof.
  induction a as [b|c| | | | |n|h args IH|x IH|l] using ann_ind'; intros at_ v H; cbn [SchemaModel.to_dict] in H.
  - binds H. injection H as <-. apply f_builtin. destruct b; by_common.
  - destruct (kind c) eqn:K; try discriminate H; binds H; injection H as <-.
    + eapply f_measure; [exact K| |look]. by_common. cbn [form_type rev app PyValue.lookup key_eqb String.eqb]. rewrite K. reflexivity.
    + eapply f_file; [exact K| |look]. by_common. cbn. rewrite K. reflexivity.
    + eapply f_object; [exact K| |look|look]. by_common. cbn. rewrite K. reflexivity.
    + eapply f_display; [exact K|]. by_common. cbn. rewrite K. reflexivity.
  - binds H. injection H as <-. apply f_any; [by_common|look].
  - binds H. injection H as <-. apply f_generic; [auto|by_common|split; look].
  - binds H. injection H as <-. apply f_generic; [auto|by_common|split; look].
  - binds H. injection H as <-. apply f_class_of; [auto|by_common|split; look].
  - binds H. injection H as <-. apply f_generic; [eauto|by_common|split; look].
  - rewrite Forall_forall in IH.
    assert (Hsel : forall h, selector h -> forall v,
        (let* dict_ := base_dict (App h args) at_ in
         let* class_ := class_schema_dict kind build_class_schema object_to_dict args at_ in
         Ok (VDict (update (update dict_
            [(KStr "type", VStr "object"); (KStr "object_class", VStr (origin_class h)); (KStr "isAttribute", VBool true);
             (KStr "attributeType", VStr (attribute_type h));
             (KStr "properties", VDict [(KStr "class_", class_); (KStr "name", VDict [(KStr "type", VStr "string")])])])
            (decorator_items h)))) = Ok v -> form (App h args) (place_of at_) v).
    { clear H v. intros h' Hs v H. binds H. injection H as <-.
      destruct args as [|x1 rest]; [discriminate E0|]. destruct (class_schema_ok _ _ _ _ E0) as (d & -> & C1 & C2 & C3 & C4 & C5 & C6).
      rewrite update_app. cbn [app].
      assert (Hn : PyValue.lookup (KStr "decorator") x = None).
      { destruct (base_dict_ok _ _ _ E) as (s & f & _ & _ & [[_ ->]|[_ (w & _ & ->)]]); reflexivity. }
      eapply f_selector with (v := d); try assumption;
      repeat (destruct Hs as [<-|Hs]; [first [look | by_common | cbn [selector_decorator]; unfold shows, hides; rewrite lookup_update; cbn; exact Hn]|]); destruct Hs. }
    destruct h.
    + binds H. injection H as <-. destruct (map_indexed_ok _ _ _ _ E0) as [L N].
      eapply f_tuple; [by_common|look|look|exact L|]. intros i a y Ha Hy. rewrite <- place_sub. apply IH; [eapply nth_error_In; exact Ha|].
      exact (N i a y Ha Hy).
    + binds H. destruct args as [|a rest]; [discriminate|]. binds H. injection H as <-.
      destruct (file_related (App HList (a :: rest))) as [b|e] eqn:Fr.
      2:{ exfalso. apply base_dict_ok in E as (s & f & _ & Ef & _). unfold form_type in Ef. rewrite Fr in Ef. discriminate. }
      eapply f_sequence with (form_type := if b then "multiple_files" else "homogeneous_sequence"); [cbn; tauto| | |look|].
      * by_common. unfold form_type. rewrite Fr. reflexivity.
      * apply file_related_iff in Fr. destruct b; [left|right]; (split; [reflexivity|]); [apply Fr; reflexivity|intros Q; apply Fr in Q; discriminate].
      * rewrite <- place_sub. apply IH; [left; reflexivity|exact E0].
    + binds H. destruct args as [|a rest]; [discriminate|]. binds H. injection H as <-.
      destruct (file_related (App HIterator (a :: rest))) as [b|e] eqn:Fr.
      2:{ exfalso. apply base_dict_ok in E as (s & f & _ & Ef & _). unfold form_type in Ef. rewrite Fr in Ef. discriminate. }
      eapply f_sequence with (form_type := if b then "multiple_files" else "homogeneous_sequence"); [cbn; tauto| | |look|].
      * by_common. unfold form_type. rewrite Fr. reflexivity.
      * apply file_related_iff in Fr. destruct b; [left|right]; (split; [reflexivity|]); [apply Fr; reflexivity|intros Q; apply Fr in Q; discriminate].
      * rewrite <- place_sub. apply IH; [left; reflexivity|exact E0].
    + destruct (union_is_default_value args) eqn:Eu.
      * apply optional_iff in Eu as [[x ->]|[x ->]]; apply bind_ok in H as (u & _ & H); [apply f_optional|apply f_optional']; (apply IH; [cbn; tauto|exact H]).
      * binds H. injection H as <-. destruct (mapM_full_class _ _ E0 _ E1) as (names & -> & -> & F).
        eapply f_union with (cs := names) (bs := x1); [reflexivity|exact F|by_common| |].
        -- unfold shows. rewrite lookup_update. cbn. rewrite map_map. reflexivity.
        -- rewrite <- mixed_eq. look.
    + destruct args as [|a1 [|a2 [|a3 l]]]; try discriminate; destruct a1 as [[]| | | | | | | | | ]; try discriminate; try (destruct a2; discriminate).
      destruct a2; try discriminate. binds H. injection H as <-.
      eapply f_dict; [by_common|look|]. rewrite <- place_sub. apply IH; [cbn; auto|].
      exact E0.
    + binds H. destruct args as [|a rest]; [discriminate|]. binds H. injection H as <-. destruct a; try discriminate. cbn in E0, E1.
      injection E0 as <-. destruct (kind name) eqn:K; try discriminate. injection E1 as <-.
      eapply f_instance; [exact K|by_common|look|look|look].
    + discriminate.
    + binds H. injection H as <-. apply f_class_of; [eauto|by_common|split; look].
    + apply Hsel; [cbn; tauto|exact H].
    + apply Hsel; [cbn; tauto|exact H].
    + apply Hsel; [cbn; tauto|exact H].
    + apply Hsel; [cbn; tauto|exact H].
    + apply Hsel; [cbn; tauto|exact H].
    + apply Hsel; [cbn; tauto|exact H].
    + apply Hsel; [cbn; tauto|exact H].
  - binds H. injection H as <-. eapply f_repeat; [by_common|look|look|]. rewrite <- place_sub. apply IH. exact E0.
  - binds H. injection H as <-. apply f_enum; [by_common|look].
Qed.

(** * Which annotations have a form *)
Notation takes := (takes kind class_ok dict_of).
Lemma described_written a : described a -> typed a -> written a.
Proof.
  induction a as [b|c| | | | |n|h args IH|x IH|l] using ann_ind'; intros Hd Ht; inversion Hd; subst; inversion Ht; subst;
    try (constructor; assumption); try (constructor; auto; fail).
  - inversion IH; subst. inversion H1; subst. constructor. auto.
  - constructor; [discriminate| |].
    + intros _ x. split; intros ->; inversion H2 as [|? ? [? Q] H2']; subst; try discriminate.
      inversion H2' as [|? ? [? Q'] ?]; subst; discriminate.
    + rewrite Forall_forall in *. intros a Ha. destruct (H2 a Ha) as [c ->]. constructor. destruct (H1 c Ha) as [b ->]. discriminate.
  - constructor; [discriminate|discriminate|]. rewrite Forall_forall in *. intros a Ha. auto.
  - constructor; [|intros ->|assumption]; cbn in H1; intuition congruence.
  - constructor; [discriminate|discriminate|]. repeat constructor.
  - constructor; [discriminate|discriminate|]. constructor; [|assumption]. constructor.
    match goal with H : dessia _ _ |- _ => destruct H as [b ->] end. discriminate.
  - constructor; [discriminate|discriminate|assumption].
  - constructor; [|intros ->|]; try (cbn in H1; intuition congruence). constructor; [|assumption]. inversion H2; subst; constructor; assumption.
Qed.

Lemma mapM_get_schema_ok l : Forall written l -> mapM get_schema l = Ok (map (fun _ => tt) l).
Proof. intros H; induction H as [|a l Ha Hl IH]; [reflexivity|]. cbn [mapM map]. rewrite written_schema, IH by exact Ha. reflexivity. Qed.

Lemma any_res_ok {A} (f : A -> res bool) l : Forall (fun x => exists b, f x = Ok b) l -> exists b, any_res f l = Ok b.
Proof. intros H; induction H as [|x l [b Hb] Hl [b' IH]]; [exists false; reflexivity|]. cbn [any_res]. rewrite Hb. destruct b; [exists true; reflexivity|eauto]. Qed.

Lemma searchable_app h args : searchable (App h args) -> Forall searchable args /\
  (h = HUnion -> forall x, args = [x; NoneType] -> (forall y, x <> Repeat y) /\ (forall l, x <> Enum l) /\ (forall l, x <> App HUnion l)).
Proof. intros H; inversion H; subst; auto. Qed.
Lemma written_app h args : written (App h args) ->
  Forall written args \/ (h = HUnion /\ exists x, args = [x; NoneType] /\ written x) \/ (h = HUnion /\ exists x, args = [NoneType; x]).
Proof. intros H; inversion H; subst; eauto 7. Qed.

Lemma file_related_ok a : searchable a -> written a -> exists b, file_related a = Ok b.
Proof.
  induction a as [b|c| | | | |n|h args IH|x IH|l] using ann_ind'; intros Hf Hw; cbn [SchemaModel.file_related]; try (eexists; reflexivity).
  - apply searchable_app in Hf as [Hfs Hfu]. destruct (head_beq h HUnion && union_is_default_value args) eqn:E.
    + apply andb_true_iff in E as [Eh Eu]. apply head_beq_iff in Eh; subst h. apply optional_iff in Eu as [[x ->]|[x ->]]; [|eexists; reflexivity].
      destruct (Hfu eq_refl x eq_refl) as (N1 & N2 & N3). destruct x; try (eexists; reflexivity).
      * assert (Hx : written (App h args)).
        { apply written_app in Hw as [Hw|[(_ & x & Q & Hw)|(_ & x & Q)]]; [inversion Hw; assumption|injection Q as <-; exact Hw|discriminate]. }
        assert (Hl : Forall written args).
        { apply written_app in Hx as [Hx|[(-> & _)|(-> & _)]]; [exact Hx|exfalso; eapply N3; reflexivity|exfalso; eapply N3; reflexivity]. }
        rewrite (mapM_get_schema_ok _ Hl). cbn [bind].
        apply Forall_inv in IH. apply Forall_inv in Hfs. destruct (IH Hfs Hx) as [b Hb]. cbn [SchemaModel.file_related] in Hb.
        destruct (head_beq h HUnion && union_is_default_value args) eqn:E2.
        { apply andb_true_iff in E2 as [Eh _]. apply head_beq_iff in Eh; subst h. exfalso. eapply N3; reflexivity. }
        rewrite (mapM_get_schema_ok _ Hl) in Hb. exists b. exact Hb.
      * exfalso. eapply N1; reflexivity.
      * exfalso. eapply N2; reflexivity.
    + assert (Hl : Forall written args).
      { apply written_app in Hw as [Hw|[(-> & x & -> & _)|(-> & x & ->)]]; [exact Hw|..]; exfalso; cbn in E; [destruct x|]; discriminate. }
      rewrite (mapM_get_schema_ok _ Hl). cbn [bind]. apply any_res_ok. rewrite Forall_forall in *. auto.
  - inversion Hf; inversion Hw; subst. rewrite written_schema by assumption. cbn [bind]. auto.
Qed.

Lemma list_searchable h args : file_safe (App h args) -> In h [HList; HIterator] -> searchable (App h args).
Proof. intros H Hh. inversion H; subst. apply sr_app; [auto|]. intros ->. cbn in Hh. intuition discriminate. Qed.

Lemma base_dict_total a at_ : written a \/ a = NoneValue -> optional a = false -> file_safe a ->
  (has_default (a_default at_) = true -> exists w, default_shown a (a_default at_) w) -> exists d, base_dict a at_ = Ok d.
Proof.
  intros Hw Ho Hf Hd. unfold SchemaModel.base_dict.
  assert (E : exists s, serialized a = Ok s).
  { destruct Hw as [Hw| ->]; [destruct (written_serialized a Hw) as (s & E & _); eauto|eexists; reflexivity]. }
  destruct E as [s ->]. cbn [bind].
  assert (E : exists f, form_type kind a = Ok f).
  { destruct a; try (eexists; reflexivity). destruct h; try (eexists; reflexivity);
      (destruct Hw as [Hw|Hw]; [|discriminate]); (apply list_searchable in Hf; [|cbn; tauto]; destruct (file_related_ok _ Hf Hw) as [b Eb]; unfold form_type; rewrite Eb; eexists; reflexivity). }
  destruct E as [f ->]. cbn [bind]. destruct (has_default (a_default at_)) eqn:Q; [|eexists; reflexivity].
  destruct (Hd eq_refl) as [w Hs]. apply default_value_iff in Hs; [|assumption|assumption]. rewrite Hs. eexists; reflexivity.
Qed.

Lemma takes_shown a v : takes a v -> optional a = false -> exists w, default_shown a v w.
Proof. intros H Ho. inversion H; subst; [eauto| |]; cbn in Ho; [destruct x|]; discriminate. Qed.

Lemma full_class_dessia cs : Forall (fun a => exists c, a = Class c /\ dessia kind c) cs ->
  exists ns bs, mapM full_class cs = Ok ns /\ mapM (standalone kind) cs = Ok bs.
Proof.
  intros H; induction H as [|a l (c & -> & b & K) Hl (ns & bs & E1 & E2)]; [exists [], []; split; reflexivity|].
  exists (text c :: ns), (b :: bs). cbn [mapM full_class standalone]. rewrite K, E1, E2. split; reflexivity.
Qed.

Lemma to_dict_total a : forall at_, described a -> typed a \/ a = NoneValue -> file_safe a ->
  (has_default (a_default at_) = true -> takes a (a_default at_)) -> exists v, to_dict a at_ = Ok v.
Proof.
  assert (Hsub : forall x at_ i, has_default (a_default (sub_attribute at_ i)) = true -> takes x (a_default (sub_attribute at_ i)))
    by (intros x at_ i Q; discriminate Q).
  assert (Hbase : forall a at_, described a -> typed a \/ a = NoneValue -> optional a = false -> file_safe a ->
     (has_default (a_default at_) = true -> takes a (a_default at_)) -> exists d, base_dict a at_ = Ok d).
  { intros a0 at_ Hd Ht Ho Hf Hk. apply base_dict_total; auto.
    - destruct Ht as [Ht| ->]; [left; apply described_written; assumption|right; reflexivity].
    - intros Q. apply takes_shown; auto. }
  induction a as [b|c| | | | |n|h args IH|x IH|l] using ann_ind'; intros at_ Hd Ht Hf Hk; cbn [SchemaModel.to_dict];
    try (match goal with |- exists v, (let* _ := SchemaModel.base_dict _ _ _ ?A _ in _) = Ok v =>
           destruct (Hbase A at_ Hd Ht eq_refl Hf Hk) as [d E]; rewrite E; eexists; reflexivity end).
  - destruct (Hbase (Class c) at_ Hd Ht eq_refl Hf Hk) as [d E]. inversion Hd; subst. destruct (kind c); try congruence; rewrite E; eexists; reflexivity.
  - destruct Ht as [Ht|Ht]; [|discriminate]. assert (Hfs : Forall file_safe args) by (inversion Hf; assumption).
    assert (Hts : Forall typed args) by (inversion Ht; assumption).
    rewrite Forall_forall in IH. rewrite Forall_forall in Hfs, Hts.
    assert (Hb : optional (App h args) = false -> exists d, base_dict (App h args) at_ = Ok d) by (intros Ho; apply Hbase; auto).
    inversion Hd as [ | | | | | | | | |y Hy E1|y E1|l Hc Hl E1|l Hl Hn E1|h' y rest Hh Hy Hr E1|b E1|c rest Hc Hr E1|l Hl E1|h' y rest Hh Hy Hr E1]; subst.
    + assert (Eu : union_is_default_value [y; NoneType] = true) by (apply optional_iff; left; eauto). rewrite Eu.
      assert (Hg : get_schema y = Ok tt).
      { apply written_schema. apply described_written; [assumption|]. apply Hts; left; reflexivity. }
      rewrite Hg. cbn [bind]. apply IH; auto; [left; reflexivity|left; apply Hts; left; reflexivity|apply Hfs; left; reflexivity|].
      intros Q. specialize (Hk Q). inversion Hk as [a v w Hs|z v Hz|z v]; subst; auto.
      * exfalso. inversion Hs; subst; cbn in *; try contradiction; try (intuition discriminate).
        match goal with N : forall _, _ /\ _ |- _ => destruct (N y) as [N1 _]; congruence end.
      * eapply tk_shown. apply ds_same. exact I.
    + cbn [union_is_default_value]. cbn. destruct (has_default (a_default at_)); eexists; reflexivity.
    + assert (Eu : union_is_default_value args = false).
      { apply optional_false. intros x. rewrite Forall_forall in Hl. split; intros ->.
        - destruct (Hl NoneType) as [c Q]; [cbn; auto|discriminate].
        - destruct (Hl NoneType) as [c Q]; [cbn; auto|discriminate]. }
      rewrite Eu. destruct (Hb Eu) as [d ->]. cbn [bind].
      destruct (full_class_dessia args) as (ns & bs & -> & ->).
      { rewrite Forall_forall in *. intros a Ha. destruct (Hl a Ha) as [c ->]. eauto. }
      eexists; reflexivity.
    + destruct (Hb eq_refl) as [d ->]. cbn [bind].
      assert (E : forall k, exists items, map_indexed (fun i x => to_dict x (sub_attribute at_ i)) k args = Ok items).
      { rewrite Forall_forall in Hl. clear Hd Hb Hf Ht Hk Hn. induction args as [|a args IHa]; intros k; [eexists; reflexivity|]. cbn [map_indexed].
        destruct (IH a (or_introl eq_refl) (sub_attribute at_ k)) as [v ->]; auto; try (left; apply Hts; left; reflexivity); try (apply Hfs; left; reflexivity); try (apply Hl; left; reflexivity).
        cbn [bind]. destruct IHa with (k := S k) as [items ->]; [..|eexists; reflexivity].
        - intros b Hb. apply IH. right; exact Hb.
        - intros b Hb. apply Hfs. right; exact Hb.
        - intros b Hb. apply Hts. right; exact Hb.
        - intros b Hb. apply Hl. right; exact Hb. }
      destruct (E 0) as [items ->]. eexists; reflexivity.
    + cbn in Hh. destruct Hh as [<-|[<-|[]]]; (destruct (Hb eq_refl) as [d ->]; cbn [bind];
        destruct (IH y (or_introl eq_refl) (sub_attribute at_ 0)) as [v ->]; auto; try (left; apply Hts; left; reflexivity); try (apply Hfs; left; reflexivity); eexists; reflexivity).
    + destruct (Hb eq_refl) as [d ->]. cbn [bind].
      destruct (IH (Builtin b) (or_intror (or_introl eq_refl)) (sub_attribute at_ 1)) as [v Ev]; auto; try (constructor; fail).
      * left; constructor.
      * rewrite Ev. eexists; reflexivity.
    + destruct (Hb eq_refl) as [d ->]. cbn [bind full_class standalone]. destruct Hc as [b ->]. eexists; reflexivity.
    + destruct (Hb eq_refl) as [d ->]. eexists; reflexivity.
    + assert (Hcs : exists v, class_schema_dict kind build_class_schema object_to_dict (y :: rest) at_ = Ok v).
      { unfold class_schema_dict. cbn [firstn].
        assert (B : forall sub, (has_default (a_default sub) = true -> exists n b, a_default sub = VClass n b) -> exists d, base_dict (App HType [y]) sub = Ok d).
        { intros sub Hs. apply base_dict_total; [|reflexivity| |].
          - left. constructor; [discriminate|discriminate|]. constructor; [|constructor]. inversion Hy; subst; constructor; assumption.
          - apply fs_app; [|cbn; intuition discriminate]. constructor; [|constructor]. inversion Hy; subst; constructor.
          - intros Q. destruct (Hs Q) as (n & b & ->). eexists. apply ds_class_of. }
        inversion Hy; subst; cbn [class_argument bind full_class];
          match goal with |- exists v, (let* _ := SchemaModel.base_dict _ _ _ _ ?S in _) = Ok v =>
            destruct (B S) as [d E]; [cbn [a_default]; (intros Q; discriminate Q) || (intros _; do 2 eexists; reflexivity)|]; rewrite E; eexists; reflexivity
          end. }
      destruct Hcs as [v Hv]. 
      assert (Ho : optional (App h (y :: rest)) = false).
      { cbn in Hh. repeat (destruct Hh as [<-|Hh]; [reflexivity|]). destruct Hh. }
      destruct (Hb Ho) as [d Ed].
      cbn in Hh. repeat (destruct Hh as [<-|Hh]; [rewrite Ed, Hv; eexists; reflexivity|]). destruct Hh.
  - destruct Ht as [Ht|Ht]; [|discriminate].
    destruct (Hbase (Repeat x) at_ Hd (or_introl Ht) eq_refl Hf Hk) as [d ->]. cbn [bind]. inversion Hd; inversion Hf; inversion Ht; subst.
    destruct (IH (sub_attribute at_ 0)) as [v ->]; auto. eexists; reflexivity.
Qed.

(** * What has a form is described *)
Lemma mapM_mapped {A B} (f : A -> res B) l r : mapM f l = Ok r -> Forall (fun a => exists b, f a = Ok b) l.
Proof.
  revert r; induction l as [|a l IH]; intros r H; [constructor|]. cbn [mapM] in H. binds H.
  constructor; [eauto|]. eapply IH. exact E0.
Qed.

Lemma class_argument_selectable x rest r : class_argument (x :: rest) = Ok r -> written x -> match r with Some a => exists n, full_class a = Ok n | None => True end -> selectable kind x.
Proof.
  intros H Hw Hr. destruct x; cbn in H; injection H as <-; try constructor; try (destruct Hr as [n Hr]; discriminate Hr).
  inversion Hw; assumption.
Qed.

Lemma base_dict_written a at_ d : base_dict a at_ = Ok d -> typed a -> written a.
Proof. intros H Ht. unfold SchemaModel.base_dict in H. apply bind_ok in H as (s & E & _). eapply serialized_typed; eassumption. Qed.

Lemma to_dict_described a : forall at_ v, to_dict a at_ = Ok v -> typed a \/ a = NoneValue -> described a.
Proof.
  induction a as [b|c| | | | |n|h args IH|x IH|l] using ann_ind'; intros at_ v H Ht; try (constructor; fail).
  - constructor. intros Q. cbn [SchemaModel.to_dict] in H. rewrite Q in H. discriminate.
  - destruct Ht as [Ht|Ht]; [|discriminate]. assert (Hts : Forall typed args) by (inversion Ht; assumption).
    assert (Hargs : forall d, base_dict (App h args) at_ = Ok d -> optional (App h args) = false -> Forall written args).
    { intros d Ed Ho. apply base_dict_written in Ed; [|exact Ht]. apply written_app in Ed as [Q|[(-> & x & -> & _)|(-> & x & ->)]]; [exact Q|..];
        cbn in Ho; [destruct x|]; discriminate. }
    cbn [SchemaModel.to_dict] in H.
    assert (Hsel : selector h -> (exists d c, base_dict (App h args) at_ = Ok d /\ class_schema_dict kind build_class_schema object_to_dict args at_ = Ok c) ->
      described (App h args)).
    { intros Hs (d & c & Ed & Ec). 
      assert (Ho : optional (App h args) = false).
      { cbn in Hs. repeat (destruct Hs as [<-|Hs]; [reflexivity|]). destruct Hs. }
      specialize (Hargs d Ed Ho). unfold class_schema_dict in Ec. apply bind_ok in Ec as (r & Er & Ec). apply bind_ok in Ec as (r' & Er' & _).
      destruct args as [|x rest]; [discriminate|]. inversion Hargs; subst. apply d_selector; [assumption| |assumption].
      eapply class_argument_selectable; [exact Er|assumption|]. destruct r; [|exact I]. apply bind_ok in Er' as (n & En & _). eauto. }
    destruct h; try (apply Hsel; [cbn; tauto|]; apply bind_ok in H as (d & Ed & H); apply bind_ok in H as (c & Ec & H); eauto; fail); try discriminate.
    + apply bind_ok in H as (d & Ed & H). apply bind_ok in H as (w & Ew & H). constructor.
      * clear -IH Hts Ew. revert w Ew. generalize 0 at 1 as k. intros k. revert k. induction args as [|a args IHa]; intros k w Ew; [constructor|].
        cbn [map_indexed] in Ew. apply bind_ok in Ew as (y & Ey & Ew). apply bind_ok in Ew as (ys & Eys & Ew).
        inversion IH; inversion Hts; subst. constructor; [eauto|eapply IHa; eauto].
      * intros Q. rewrite Forall_forall in Hts. specialize (Hts _ Q). inversion Hts.
    + apply bind_ok in H as (d & Ed & H). destruct args as [|x rest]; [discriminate|]. apply bind_ok in H as (w & Ew & H).
      specialize (Hargs d Ed eq_refl). constructor; [cbn; tauto| |exact Hargs]. apply Forall_inv in IH, Hts. eapply IH; [exact Ew|left; exact Hts].
    + apply bind_ok in H as (d & Ed & H). destruct args as [|x rest]; [discriminate|]. apply bind_ok in H as (w & Ew & H).
      specialize (Hargs d Ed eq_refl). constructor; [cbn; tauto| |exact Hargs]. apply Forall_inv in IH, Hts. eapply IH; [exact Ew|left; exact Hts].
    + destruct (union_is_default_value args) eqn:Eu.
      * apply optional_iff in Eu as [[x ->]|[x ->]]; [|constructor]. apply bind_ok in H as (u & _ & H). constructor.
        apply Forall_inv in IH, Hts. eapply IH; [exact H|left; exact Hts].
      * apply bind_ok in H as (d & Ed & H). apply bind_ok in H as (ns & En & H). apply bind_ok in H as (bs & Eb & H).
        apply mapM_mapped in Eb. rewrite Forall_forall in Eb. constructor.
        -- intros c Hc. destruct (Eb _ Hc) as [b Q]. cbn in Q. unfold dessia. destruct (kind c); try discriminate; eauto.
        -- rewrite Forall_forall. intros a Ha. destruct (Eb _ Ha) as [b Q]. destruct a; try discriminate. eauto.
    + destruct args as [|k [|x [|? ?]]]; try discriminate. destruct k; try discriminate. destruct b; try discriminate. destruct x; try discriminate. apply d_dict.
    + apply bind_ok in H as (d & Ed & H). specialize (Hargs d Ed eq_refl). destruct args as [|x rest]; [discriminate|].
      apply bind_ok in H as (n & En & H). apply bind_ok in H as (b & Eb & H). destruct x; try discriminate. inversion Hargs; subst. apply d_instance; [|assumption].
      cbn in Eb. unfold dessia. destruct (kind name); try discriminate; eauto.
    + apply bind_ok in H as (d & Ed & H). specialize (Hargs d Ed eq_refl). apply d_class_of. exact Hargs.
  - cbn [SchemaModel.to_dict] in H. apply bind_ok in H as (d & Ed & H). apply bind_ok in H as (w & Ew & H).
    constructor. destruct Ht as [Ht|Ht]; [|discriminate]. inversion Ht; subst. eapply IH; [exact Ew|left; assumption].
Qed.

(** * Forms can be written in json *)
Lemma json_base a at_ d items : base_dict a at_ = Ok d -> json_items items -> PyValue.lookup (KStr "defaultValue") (rev items) = None ->
  (forall w, shows (update d items) "defaultValue" w -> json w) -> json (VDict (update d items)).
Proof.
  intros H Hi Hn Hw. constructor. apply json_update; [|exact Hi]. unfold shows in Hw. rewrite lookup_update, Hn in Hw.
  unfold SchemaModel.base_dict in H. apply bind_ok in H as (s & _ & H). apply bind_ok in H as (f & _ & H).
  assert (J : forall l, json_items l -> json_items (([(KStr "pythonTyping", match s with Some s => VStr (text s) | None => VNone end);
                (KStr "type", VNone); (KStr "formType", VStr f)] ++ attribute_dict at_) ++ l)).
  { intros l Hl. apply Forall_app. split; [|exact Hl]. repeat constructor; cbn; eauto. destruct s; constructor. }
  destruct (has_default (a_default at_)).
  - apply bind_ok in H as (w & _ & H). injection H as <-. apply J. repeat constructor; cbn; [eauto|]. apply Hw. reflexivity.
  - injection H as <-. specialize (J [] ltac:(constructor)). rewrite app_nil_r in J. exact J.
Qed.

Lemma to_dict_dict a at_ v : to_dict a at_ = Ok v -> exists d, v = VDict d.
Proof.
  revert at_ v; induction a as [b|c| | | | |n|h args IH|x IH|l] using ann_ind'; intros at_ v H; cbn [SchemaModel.to_dict] in H;
    try (apply bind_ok in H as (d & _ & H); injection H as <-; eauto; fail).
  - destruct (kind c); try discriminate; apply bind_ok in H as (d & _ & H); injection H as <-; eauto.
  - destruct h; try discriminate;
     try (apply bind_ok in H as (d & _ & H); try (injection H as <-; eauto; fail); apply bind_ok in H as (? & _ & H); injection H as <-; eauto; fail).
    + apply bind_ok in H as (d & _ & H). destruct args; [discriminate|]. apply bind_ok in H as (? & _ & H). injection H as <-; eauto.
    + apply bind_ok in H as (d & _ & H). destruct args; [discriminate|]. apply bind_ok in H as (? & _ & H). injection H as <-; eauto.
    + destruct (union_is_default_value args).
      * destruct args; [discriminate|]. apply bind_ok in H as (? & _ & H). apply Forall_inv in IH. eauto.
      * do 3 (apply bind_ok in H as (? & _ & H)). injection H as <-; eauto.
    + destruct args as [|k [|x [|? ?]]]; try discriminate. destruct k; try discriminate. destruct b; try discriminate. destruct x; try discriminate.
      do 2 (apply bind_ok in H as (? & _ & H)). injection H as <-; eauto.
    + apply bind_ok in H as (d & _ & H). destruct args; [discriminate|]. do 2 (apply bind_ok in H as (? & _ & H)). injection H as <-; eauto.
  - do 2 (apply bind_ok in H as (? & _ & H)). injection H as <-; eauto.
Qed.

Lemma form_hides a p v : form a p v -> p_default p = None -> exists d, v = VDict d /\ hides d "defaultValue".
Proof.
  intros H Hp; induction H; try (apply IHform; exact Hp);
    (eexists; split; [reflexivity|]; match goal with C : SchemaSpec.common _ _ _ _ _ _ _ _ |- _ => unfold SchemaSpec.common in C; rewrite Hp in C; apply C end).
Qed.
Lemma sub_hides a at_ i d w : to_dict a (sub_attribute at_ i) = Ok (VDict d) -> ~ shows d "defaultValue" w.
Proof.
  intros H Hs. apply to_dict_form, form_hides in H as (d' & E & Hh); [|reflexivity]. injection E as <-. unfold hides, shows in *. congruence.
Qed.

Lemma class_schema_json args at_ v : class_schema_dict kind build_class_schema object_to_dict args at_ = Ok v -> json v.
Proof.
  unfold class_schema_dict. intros H. apply bind_ok in H as (r & Er & H). apply bind_ok in H as (u & Eu & H). apply bind_ok in H as (d & Ed & H). injection H as <-.
  eapply json_base; [exact Ed| |reflexivity|].
  - repeat constructor; cbn; eauto.
  - intros w Hw. unfold shows in Hw. rewrite lookup_update in Hw. cbn [rev app class_items PyValue.lookup] in Hw. cbn in Hw.
    apply base_dict_ok in Ed as (s & f & _ & _ & [[_ ->]|[Hd (w' & Ew & ->)]]); cbn in Hw; [discriminate|]. injection Hw as <-. cbn [a_default] in *.
    destruct r; [apply bind_ok in Eu as (n & En & Eu)|]; injection Eu as <-; [|discriminate Hd].
    destruct args; [discriminate|]. apply default_value_iff in Ew; [|reflexivity|reflexivity]. inversion Ew; subst; try constructor; cbn in *; intuition discriminate.
Qed.
Lemma to_dict_json a : forall at_ d, to_dict a at_ = Ok (VDict d) -> (forall w, shows d "defaultValue" w -> json w) -> json (VDict d).
Proof.
  assert (Hi : forall x at_ i v, (forall at_ d, to_dict x at_ = Ok (VDict d) -> (forall w, shows d "defaultValue" w -> json w) -> json (VDict d)) ->
     to_dict x (sub_attribute at_ i) = Ok v -> json v).
  { intros x at_ i v IH E. destruct (to_dict_dict _ _ _ E) as [d ->]. eapply IH; [exact E|]. intros w Hw. exfalso. eapply sub_hides; eassumption. }
  assert (Hs : forall s : string, exists t, KStr s = KStr t) by eauto.
  induction a as [b|c| | | | |n|h args IH|x IH|l] using ann_ind'; intros at_ d H Hw; cbn [SchemaModel.to_dict] in H;
    try (apply bind_ok in H as (e & Ee & H); injection H as <-; eapply json_base; [exact Ee| |reflexivity|exact Hw]; repeat constructor; cbn; eauto; fail).
  - destruct (kind c); try discriminate; apply bind_ok in H as (e & Ee & H); injection H as <-; (eapply json_base; [exact Ee| |reflexivity|exact Hw]); repeat constructor; cbn; eauto.
  - destruct h; try discriminate;
      try (apply bind_ok in H as (e & Ee & H); injection H as <-; eapply json_base; [exact Ee| |reflexivity|exact Hw]; repeat constructor; cbn; eauto; fail).
    + apply bind_ok in H as (e & Ee & H). apply bind_ok in H as (items & Ei & H). injection H as <-. eapply json_base; [exact Ee| |reflexivity|exact Hw].
      assert (J : Forall json items).
      { clear -IH Ei Hi. revert items Ei. generalize 0 at 1 as k. intros k. revert k. induction args as [|a args IHa]; intros k w Ew; cbn [map_indexed] in Ew.
        - injection Ew as <-. constructor.
        - apply bind_ok in Ew as (y & Ey & Ew). apply bind_ok in Ew as (ys & Eys & Ew). injection Ew as <-.
          inversion IH; subst. constructor; [eapply Hi; eassumption|eapply IHa; eassumption]. }
      repeat constructor; cbn; eauto.
    + apply bind_ok in H as (e & Ee & H). destruct args; [discriminate|]. apply bind_ok in H as (v & Ev & H). injection H as <-.
      apply Forall_inv in IH. (eapply json_base; [exact Ee| |reflexivity|exact Hw]); repeat constructor; cbn; eauto.
    + apply bind_ok in H as (e & Ee & H). destruct args; [discriminate|]. apply bind_ok in H as (v & Ev & H). injection H as <-.
      apply Forall_inv in IH. (eapply json_base; [exact Ee| |reflexivity|exact Hw]); repeat constructor; cbn; eauto.
    + destruct (union_is_default_value args).
      * destruct args; [discriminate|]. apply bind_ok in H as (? & _ & H). apply Forall_inv in IH. eauto.
      * apply bind_ok in H as (e & Ee & H). apply bind_ok in H as (ns & _ & H). apply bind_ok in H as (bs & _ & H). injection H as <-.
        (eapply json_base; [exact Ee| |reflexivity|exact Hw]); repeat constructor; cbn; eauto.
        -- clear. induction ns; repeat constructor; assumption.
        -- destruct (forallb _ bs); [constructor|]. destruct (negb _); constructor.
    + destruct args as [|k [|x [|? ?]]]; try discriminate. destruct k; try discriminate. destruct b; try discriminate. destruct x; try discriminate.
      apply bind_ok in H as (e & Ee & H). apply bind_ok in H as (v & Ev & H). injection H as <-.
      (eapply json_base; [exact Ee| |reflexivity|exact Hw]); repeat constructor; cbn; eauto. eapply Hi; [|exact Ev]. inversion IH; subst. inversion H2; subst. assumption.
    + apply bind_ok in H as (e & Ee & H). destruct args; [discriminate|]. apply bind_ok in H as (n & _ & H). apply bind_ok in H as (b & _ & H). injection H as <-.
      (eapply json_base; [exact Ee| |reflexivity|exact Hw]); repeat constructor; cbn; eauto.
    + apply bind_ok in H as (e & Ee & H). apply bind_ok in H as (v & Ev & H). injection H as <-. apply class_schema_json in Ev. rewrite update_app.
      (eapply json_base; [exact Ee| |reflexivity|rewrite <- update_app; exact Hw]); repeat constructor; cbn; eauto.
    + apply bind_ok in H as (e & Ee & H). apply bind_ok in H as (v & Ev & H). injection H as <-. apply class_schema_json in Ev. rewrite update_app.
      (eapply json_base; [exact Ee| |reflexivity|rewrite <- update_app; exact Hw]); repeat constructor; cbn; eauto.
    + apply bind_ok in H as (e & Ee & H). apply bind_ok in H as (v & Ev & H). injection H as <-. apply class_schema_json in Ev. rewrite update_app.
      (eapply json_base; [exact Ee| |reflexivity|rewrite <- update_app; exact Hw]); repeat constructor; cbn; eauto.
    + apply bind_ok in H as (e & Ee & H). apply bind_ok in H as (v & Ev & H). injection H as <-. apply class_schema_json in Ev. rewrite update_app.
      (eapply json_base; [exact Ee| |reflexivity|rewrite <- update_app; exact Hw]); repeat constructor; cbn; eauto.
    + apply bind_ok in H as (e & Ee & H). apply bind_ok in H as (v & Ev & H). injection H as <-. apply class_schema_json in Ev. rewrite update_app.
      (eapply json_base; [exact Ee| |reflexivity|rewrite <- update_app; exact Hw]); repeat constructor; cbn; eauto.
    + apply bind_ok in H as (e & Ee & H). apply bind_ok in H as (v & Ev & H). injection H as <-. apply class_schema_json in Ev. rewrite update_app.
      (eapply json_base; [exact Ee| |reflexivity|rewrite <- update_app; exact Hw]); repeat constructor; cbn; eauto.
    + apply bind_ok in H as (e & Ee & H). apply bind_ok in H as (v & Ev & H). injection H as <-. apply class_schema_json in Ev. rewrite update_app.
      (eapply json_base; [exact Ee| |reflexivity|rewrite <- update_app; exact Hw]); repeat constructor; cbn; eauto.
  - apply bind_ok in H as (e & Ee & H). apply bind_ok in H as (v & Ev & H). injection H as <-.
    (eapply json_base; [exact Ee| |reflexivity|exact Hw]); repeat constructor; cbn; eauto.
  - apply bind_ok in H as (e & Ee & H). injection H as <-.
    (eapply json_base; [exact Ee| |reflexivity|exact Hw]); repeat constructor; cbn; eauto. clear. induction l; repeat constructor; assumption.
Qed.
End Forms.

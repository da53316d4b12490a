(** C65: the schema of a class or of a method. *)
From Coq Require Import ZArith QArith Ascii String List Bool Arith.
From Verif Require Import Base BaseProofs AnnotationModel DocstringModel DocstringSpec DocstringProps PyValue SchemaModel SchemaSpec SchemaProofs SchemaProps.
From Verif Require SignatureModel SignatureProps.
Import ListNotations.
Local Open Scope string_scope.
Local Open Scope list_scope.

(** * The arguments of a signature *)
Notation argspec := (SignatureModel.argspec val).
Notation args := SignatureModel.args.
(** The annotation of an argument *)
Definition annotated (annotations : list (string * ann)) (n : string) (a : ann) : Prop :=
  exists before after, annotations = before ++ (n, a) :: after /\ ~ In n (map fst before).
(** What a form says of: all arguments but self, cls, progress_callback and return, in order *)
Definition asked (spec : argspec) : list string :=
  filter (fun n => if in_dec string_dec n ["self"; "cls"; "progress_callback"; "return"] then false else true) (args spec).
(** What Python calls a method: the first argument is the object or the class *)
Definition method_signature (spec : argspec) : Prop :=
  SignatureProps.signature spec /\ exists first rest, args spec = first :: rest /\ In first ["self"; "cls"].
(** The default values are all Python values but UNDEFINED *)
Definition default_of (spec : argspec) (n : string) : option val := SignatureProps.python_default spec n.
Definition no_undefined (spec : argspec) : Prop := forall n v, default_of spec n = Some v -> v <> VObj "builtins.object" [].

(** What the docstring says of an argument *)
Definition documented (kind : str -> ckind) (annotations : list (string * ann)) (docstring : option str) (n : string) : string :=
  text (attribute_description
    (snd (member_docstring (fun m => option_map (fun a => let* _ := get_schema kind a in let* _ := serialized kind a in Ok tt)
                                                (SignatureModel.get_name (text m) annotations)) docstring)) (list_ascii_of_string n)).
(** The place of the form of an argument *)
Definition argument_place kind (spec : argspec) annotations docstring (n : string) : place :=
  {| p_key := n; p_title := string_of_list_ascii (prettyname (list_ascii_of_string n)); p_editable := true;
     p_description := documented kind annotations docstring n; p_default := default_of spec n |}.

(** * Lemmas *)
Lemma get_name_annotated annotations n a : SignatureModel.get_name n annotations = Some a <-> annotated annotations n a.
Proof.
  unfold annotated. induction annotations as [|[m b] l IH]; cbn [SignatureModel.get_name].
  - split; [discriminate|]. intros ([|? ?] & after & E & _); discriminate.
  - destruct (String.eqb n m) eqn:Q.
    + apply String.eqb_eq in Q; subst m. split.
      * intros E; injection E as ->. exists [], l. split; [reflexivity|intros []].
      * intros ([|[k c] before] & after & E & Hn); cbn in E; injection E as E1 E2; subst; [congruence|]. exfalso. apply Hn. left. reflexivity.
    + apply String.eqb_neq in Q. rewrite IH. split.
      * intros (before & after & -> & Hn). exists ((m, b) :: before), after. split; [reflexivity|]. cbn. intuition congruence.
      * intros ([|[k c] before] & after & E & Hn); cbn in E; injection E as E1 E2; subst; [congruence|]. exists before, after. split; [reflexivity|].
        intros Hb. apply Hn. right. exact Hb.
Qed.
Lemma get_name_some {A} n (l : list (string * A)) x : SignatureModel.get_name n l = Some x -> In (n, x) l.
Proof.
  induction l as [|[m b] l IH]; cbn [SignatureModel.get_name]; [discriminate|]. destruct (String.eqb n m) eqn:Q.
  - apply String.eqb_eq in Q; subst m. intros E; injection E as ->. left; reflexivity.
  - intros E. right. auto.
Qed.
Lemma get_name_in {A} n (l : list (string * A)) : In n (map fst l) -> exists x, SignatureModel.get_name n l = Some x.
Proof.
  induction l as [|[m b] l IH]; cbn [SignatureModel.get_name map fst]; [intros []|]. intros [->|Hin].
  - rewrite String.eqb_refl. eauto.
  - destruct (String.eqb n m); eauto.
Qed.
Lemma nodup_fst {A} n (l : list (string * A)) x y : NoDup (map fst l) -> In (n, x) l -> In (n, y) l -> x = y.
Proof.
  induction l as [|[m b] l IH]; intros Hnd Hx Hy; [destruct Hx|]. cbn in Hnd. inversion Hnd; subst.
  assert (Q : forall z, In (n, z) l -> In n (map fst l)) by (intros z Hz; apply (in_map fst) in Hz; exact Hz).
  destruct Hx as [Ex|Hx], Hy as [Ey|Hy].
  - congruence.
  - injection Ex as -> ->. exfalso. eauto.
  - injection Ey as -> ->. exfalso. eauto.
  - auto.
Qed.
Lemma last_schema_nodup n l x : NoDup (map fst l) -> In (n, x) l -> last_schema n l = Some x.
Proof.
  intros Hnd Hin. unfold last_schema.
  destruct (get_name_in n (rev l)) as [y Hy].
  { rewrite map_rev, <- in_rev. apply (in_map fst) in Hin. exact Hin. }
  rewrite Hy. f_equal. apply get_name_some in Hy. rewrite <- in_rev in Hy. eapply nodup_fst; eassumption.
Qed.

Lemma asked_filter spec : filter (fun a => negb (SignatureModel.reserved SignatureModel.RESERVED_ARGNAMES a)) (args spec) = asked spec.
Proof.
  unfold asked. induction (args spec) as [|n l IH]; [reflexivity|]. cbn [filter].
  pose proof (SignatureProps.reserved_spec SignatureModel.RESERVED_ARGNAMES n) as R. unfold SignatureModel.RESERVED_ARGNAMES in *.
  destruct (SignatureModel.reserved _ n), (in_dec string_dec n _) as [Hi|Hi]; cbn [negb]; rewrite ?IH; try reflexivity; exfalso; intuition congruence.
Qed.
Lemma asked_nodup spec : SignatureProps.signature spec -> NoDup (asked spec).
Proof. intros [Hnd _]. apply NoDup_filter. exact Hnd. Qed.

Section Schema.
Variable kind : str -> ckind.
Variable build_class_schema : str -> res unit.
Variable object_to_dict : val -> res val.
Notation member_schema := (member_schema kind).
Notation schema_dict := (schema_dict kind build_class_schema object_to_dict).
Notation default_dict := (default_dict kind build_class_schema object_to_dict).
Notation form := (form kind (buildable build_class_schema) (its_dict object_to_dict)).

Definition attribute_of (spec : argspec) annotations docstring (n : string) : attribute :=
  {| a_name := n; a_default := match default_of spec n with Some v => v | None => UNDEFINED end; a_title := ""; a_editable := true;
     a_desc := documented kind annotations docstring n |}.

Lemma attribute_place spec annotations docstring n : no_undefined spec ->
  place_of (attribute_of spec annotations docstring n) = argument_place kind spec annotations docstring n.
Proof.
  intros Hu. unfold place_of, argument_place, attribute_of. cbn [a_name a_title a_editable a_desc a_default title]. f_equal.
  specialize (Hu n). destruct (default_of spec n) as [v|]; [|reflexivity]. specialize (Hu v eq_refl).
  destruct v as [| | | | | | | |c [|]|]; try reflexivity. destruct (String.eqb c "builtins.object") eqn:E; [|reflexivity].
  apply String.eqb_eq in E. congruence.
Qed.

Lemma member_schema_eq spec annotations docstring group_id id : method_signature spec ->
  exists description, member_schema spec annotations docstring group_id id =
    let s := {| st_annotations := annotations; st_entries := map Single (map (attribute_of spec annotations docstring) (asked spec));
                st_display := VNone; st_label := ""; st_documentation := ""; st_variable := None; st_group_id := group_id; st_id := id |} in
    let* _ := step_schemas kind s in
    Ok {| steps := [s]; spare_properties := []; documentation := description |}.
Proof.
  intros [Hsig (first & rest & Ha & Hf)]. unfold SchemaModel.member_schema. rewrite asked_filter.
  destruct (SignatureProps.split_default_args_spec spec false Hsig) as (d & Hs & Hd).
  unfold attribute_of, documented.
  destruct (member_docstring _ docstring) as [description descriptions]. cbn [snd]. rewrite Hs. cbn [bind snd].
  exists (text description).
  replace (map (fun n => {| a_name := n; a_default := match SignatureModel.get_name n d with Some v => v | None => UNDEFINED end;
       a_title := ""; a_editable := true; a_desc := text (attribute_description descriptions (list_ascii_of_string n)) |}) (asked spec))
    with (map (fun n => {| a_name := n; a_default := match default_of spec n with Some v => v | None => UNDEFINED end;
       a_title := ""; a_editable := true; a_desc := text (attribute_description descriptions (list_ascii_of_string n)) |}) (asked spec)); [reflexivity|].
  apply map_ext_in. intros n Hn. f_equal. rewrite Hd.
  replace (existsb (String.eqb n) (SignatureProps.kept (tl (args spec)))) with true; [reflexivity|]. symmetry. apply existsb_exists.
  exists n. split; [|apply String.eqb_refl]. apply SignatureProps.kept_spec. rewrite Ha. cbn [tl].
  unfold asked in Hn. apply filter_In in Hn as [Hn Hr]. rewrite Ha in Hn. unfold SignatureModel.RESERVED_ARGNAMES.
  destruct (in_dec string_dec n _) as [Hi|Hi]; [discriminate|]. split; [|exact Hi]. destruct Hn as [->|Hn]; [|exact Hn].
  exfalso. apply Hi. destruct Hf as [<-|[<-|[]]]; cbn; auto.
Qed.

Lemma singles_map l : singles (map Single l) = l.
Proof. induction l as [|x l IH]; [reflexivity|]. cbn. f_equal. exact IH. Qed.

Lemma property_schemas_ok annotations l r : property_schemas kind annotations l = Ok r ->
  Forall2 (fun at_ s => fst s = a_name at_ /\ snd (snd s) = at_ /\ annotated annotations (a_name at_) (fst (snd s)) /\ get_schema kind (fst (snd s)) = Ok tt) l r.
Proof.
  intros H. apply mapM_ok_inv in H. induction H as [|at_ s l r Hs H IH]; constructor; [|exact IH].
  apply bind_ok in Hs as (a & Ea & Hs). apply bind_ok in Hs as ([] & Eg & Hs). injection Hs as <-. cbn.
  repeat split; [|exact Eg]. apply get_name_annotated. destruct (SignatureModel.get_name _ _); [injection Ea as ->; reflexivity|discriminate].
Qed.

Lemma forall2_fst annotations l r : Forall2 (fun at_ (s : string * (ann * attribute)) => fst s = a_name at_ /\ snd (snd s) = at_ /\ annotated annotations (a_name at_) (fst (snd s)) /\ get_schema kind (fst (snd s)) = Ok tt) l r ->
  map fst r = map a_name l.
Proof. intros H; induction H as [|at_ s l r (H1 & _) H IH]; [reflexivity|]. cbn. rewrite H1, IH. reflexivity. Qed.
Lemma names_of spec annotations docstring l : map a_name (map (attribute_of spec annotations docstring) l) = l.
Proof. rewrite map_map. cbn. apply map_id. Qed.

Lemma chunks_form spec annotations docstring l r forms : NoDup l -> no_undefined spec ->
  property_schemas kind annotations (map (attribute_of spec annotations docstring) l) = Ok r ->
  (forall n x, In (n, x) r -> last_schema n r = Some x) /\
  (mapM (chunk kind build_class_schema object_to_dict r) (map (attribute_of spec annotations docstring) l) = Ok forms ->
   Forall2 (fun n f => exists a, annotated annotations n a /\ form a (argument_place kind spec annotations docstring n) f) l forms).
Proof.
  intros Hnd Hu Hr. pose proof (property_schemas_ok _ _ _ Hr) as HF.
  assert (Hl : forall n x, In (n, x) r -> last_schema n r = Some x).
  { intros n x Hin. apply last_schema_nodup; [|exact Hin]. rewrite (forall2_fst _ _ _ HF), names_of. exact Hnd. }
  split; [exact Hl|]. intros Hm. apply mapM_ok_inv in Hm.
  assert (Hi : forall n, In n l -> exists a, annotated annotations n a /\ last_schema n r = Some (a, attribute_of spec annotations docstring n)).
  { intros n Hn. clear -HF Hn Hl. assert (Q : exists s, In s r /\ fst s = n /\ snd (snd s) = attribute_of spec annotations docstring n /\ annotated annotations n (fst (snd s))).
    { clear Hl. remember (map (attribute_of spec annotations docstring) l) as ats eqn:E. revert l E Hn.
      induction HF as [|at_ s ats r (H1 & H2 & H3 & _) HF IH]; intros [|m l] E Hn; try discriminate; [destruct Hn|].
      cbn in E. injection E as -> ->. destruct Hn as [->|Hn].
      - exists s. cbn in *. repeat split; auto.
      - destruct (IH l eq_refl Hn) as (s' & Q & Q'). exists s'. split; [right; exact Q|exact Q']. }
    destruct Q as ([m [a at_]] & Hin & Q1 & Q2 & Q3). cbn in *. subst. exists a. split; [exact Q3|]. apply Hl. exact Hin. }
  clear -Hm Hi Hu. remember (map (attribute_of spec annotations docstring) l) as ats eqn:E. revert l E Hi.
  induction Hm as [|at_ f ats forms Hf Hm IH]; intros [|n l] E Hi; try discriminate; [constructor|]. cbn in E. injection E as -> ->.
  constructor; [|apply IH; [reflexivity|intros m Hm'; apply Hi; right; exact Hm']].
  destruct (Hi n (or_introl eq_refl)) as (a & Ha & El). exists a. split; [exact Ha|]. unfold chunk in Hf. cbn [a_name attribute_of] in Hf. rewrite El in Hf.
  rewrite <- attribute_place by exact Hu. apply C64_form. exact Hf.
Qed.

(** * Theorems *)

(** Each argument that is asked has its form, in order, with its own annotation, default value and description. *)
Theorem C65_forms : forall spec annotations docstring group_id id s v, method_signature spec -> no_undefined spec ->
  member_schema spec annotations docstring group_id id = Ok s -> schema_dict s [] = Ok v ->
  exists d step forms, v = VDict d /\ shows d "steps" (VList [VDict step]) /\ shows d "spareProperties" (VList []) /\
    shows step "properties" (VList forms) /\
    Forall2 (fun n f => exists a, annotated annotations n a /\ form a (argument_place kind spec annotations docstring n) f) (asked spec) forms.
Proof.
  intros spec annotations docstring group_id id s v Hm Hu Hs Hv.
  destruct (member_schema_eq spec annotations docstring group_id id Hm) as [description E]. rewrite E in Hs. cbv zeta in Hs.
  apply bind_ok in Hs as (r & Er & Hs). injection Hs as <-. unfold SchemaModel.schema_dict in Hv. cbn [steps spare_properties mapM] in Hv.
  apply bind_ok in Hv as (sd & Esd & Hv). cbn [bind] in Hv. injection Hv as <-. apply bind_ok in Esd as (sd0 & Esd & E0). cbn [bind] in E0. injection E0 as <-.
  unfold step_dict in Esd. rewrite Er in Esd. cbn [bind st_entries] in Esd. apply bind_ok in Esd as (forms & Ef & Esd). injection Esd as <-.
  unfold step_schemas in Er. cbn [st_annotations st_entries] in Er. rewrite singles_map in Er.
  do 2 eexists. exists forms. split; [reflexivity|]. split; [reflexivity|]. split; [reflexivity|]. split; [reflexivity|].
  apply (proj2 (chunks_form spec annotations docstring (asked spec) r forms (asked_nodup _ (proj1 Hm)) Hu Er)).
  rewrite <- Ef. clear. induction (map _ (asked spec)) as [|x l IH]; [reflexivity|]. cbn [map mapM]. rewrite IH. reflexivity.
Qed.

(** A schema is built exactly when each argument that is asked has an annotation that get_schema knows. *)
Theorem C65_built : forall spec annotations docstring group_id id, method_signature spec ->
  ((exists s, member_schema spec annotations docstring group_id id = Ok s) <->
   forall n, In n (asked spec) -> exists a, annotated annotations n a /\ get_schema kind a = Ok tt).
Proof.
  intros spec annotations docstring group_id id Hm. destruct (member_schema_eq spec annotations docstring group_id id Hm) as [description E]. rewrite E. cbv zeta.
  unfold step_schemas. cbn [st_annotations st_entries]. rewrite singles_map. split.
  - intros [s Hs]. apply bind_ok in Hs as (r & Er & _). apply property_schemas_ok in Er. clear E. intros n Hn.
    remember (map (attribute_of spec annotations docstring) (asked spec)) as ats eqn:Q. revert Q Hn. generalize (asked spec) as l.
    induction Er as [|at_ s0 ats r (H1 & H2 & H3 & H4) HF IH]; intros [|m l] Q Hn; try discriminate; [destruct Hn|]. cbn in Q. injection Q as -> ->.
    destruct Hn as [->|Hn]; [eauto|eapply IH; [reflexivity|exact Hn]].
  - intros H.
    assert (Q : exists r, property_schemas kind annotations (map (attribute_of spec annotations docstring) (asked spec)) = Ok r).
    { unfold property_schemas. revert H. generalize (asked spec) as l. induction l as [|n l IH]; intros H; [exists []; reflexivity|]. cbn [map mapM].
      destruct (H n (or_introl eq_refl)) as (a & Ha & Hg). apply get_name_annotated in Ha. cbn [a_name attribute_of]. rewrite Ha. cbn [of_option bind]. rewrite Hg. cbn [bind].
      destruct IH as [r Hr]; [intros m Hm'; apply H; right; exact Hm'|]. rewrite Hr. eexists; reflexivity. }
    destruct Q as [r ->]. eexists; reflexivity.
Qed.

(** It can be written when forms can be. *)
Theorem C65_written : forall spec annotations docstring group_id id s, method_signature spec -> no_undefined spec ->
  member_schema spec annotations docstring group_id id = Ok s ->
  (forall n a, In n (asked spec) -> annotated annotations n a -> described kind a /\ typed a /\ file_safe a /\
     forall v, default_of spec n = Some v -> takes kind (buildable build_class_schema) (its_dict object_to_dict) a v) ->
  exists v, schema_dict s [] = Ok v.
Proof.
  intros spec annotations docstring group_id id s Hm Hu Hs Ha.
  destruct (member_schema_eq spec annotations docstring group_id id Hm) as [description E]. rewrite E in Hs. cbv zeta in Hs.
  apply bind_ok in Hs as (r & Er & Hs). injection Hs as <-. unfold SchemaModel.schema_dict. cbn [steps spare_properties mapM].
  assert (Q : exists forms, mapM (fun e => match e with
                                | Single at_ => chunk kind build_class_schema object_to_dict r at_
                                | Group at_ annotations members => group_dict kind build_class_schema object_to_dict at_ annotations members
                                end) (map Single (map (attribute_of spec annotations docstring) (asked spec))) = Ok forms).
  { unfold step_schemas in Er. cbn [st_annotations st_entries] in Er. rewrite singles_map in Er. pose proof (property_schemas_ok _ _ _ Er) as HF.
    destruct (chunks_form spec annotations docstring (asked spec) r [] (asked_nodup _ (proj1 Hm)) Hu Er) as [Hl _].
    assert (Hi : forall n, In n (asked spec) -> exists v, chunk kind build_class_schema object_to_dict r (attribute_of spec annotations docstring n) = Ok v).
    { intros n Hn.
      assert (Q : exists a, annotated annotations n a /\ In (n, (a, attribute_of spec annotations docstring n)) r).
      { clear -HF Hn. remember (map (attribute_of spec annotations docstring) (asked spec)) as ats eqn:E. revert E Hn. generalize (asked spec) as l.
        induction HF as [|at_ s ats r (H1 & H2 & H3 & _) HF IH]; intros [|m l] E Hn; try discriminate; [destruct Hn|].
        cbn in E. injection E as -> ->. destruct Hn as [->|Hn].
        - destruct s as [k [a at_]]. cbn in *. subst. exists a. split; [exact H3|left; reflexivity].
        - destruct (IH l eq_refl Hn) as (a & Q & Q'). exists a. split; [exact Q|right; exact Q']. }
      destruct Q as (a & Hann & Hin). apply Hl in Hin. unfold chunk. cbn [a_name attribute_of]. unfold attribute_of in Hin. rewrite Hin.
      destruct (Ha n a Hn Hann) as (Hd & Ht & Hf & Hk).
      apply C64_described; auto. intros v Hv. apply Hk.
      change (place_of _) with (place_of (attribute_of spec annotations docstring n)) in Hv. rewrite attribute_place in Hv by exact Hu. exact Hv. }
    clear -Hi. induction (asked spec) as [|n l IH]; [exists []; reflexivity|]. cbn [map mapM].
    destruct (Hi n (or_introl eq_refl)) as [v ->]. destruct IH as [forms ->]; [intros m Hm; apply Hi; right; exact Hm|]. eexists; reflexivity. }
  unfold step_dict. rewrite Er. cbn [bind st_entries]. destruct Q as [forms ->]. eexists; reflexivity.
Qed.

(** The default dictionary has one value for each argument that is asked, in order. *)
Lemma set_named_new {A} k (v : A) d : ~ In k (map fst d) -> set_named k v d = d ++ [(k, v)].
Proof.
  induction d as [|[j x] d IH]; intros H; [reflexivity|]. cbn in *. destruct (String.eqb k j) eqn:E; [apply String.eqb_eq in E; subst; tauto|].
  rewrite IH by tauto. reflexivity.
Qed.
Lemma fold_defaults (r : list (string * (ann * attribute))) acc d : NoDup (map fst acc ++ map fst r) ->
  foldM (fun d nas => let* v := default_value kind build_class_schema object_to_dict (fst (snd nas)) (a_default (snd (snd nas))) in Ok (set_named (fst nas) v d)) r acc = Ok d ->
  exists l, d = acc ++ l /\ Forall2 (fun nas nv => fst nv = fst nas /\ default_value kind build_class_schema object_to_dict (fst (snd nas)) (a_default (snd (snd nas))) = Ok (snd nv)) r l.
Proof.
  revert acc; induction r as [|nas r IH]; intros acc Hnd H; cbn [foldM] in H.
  - injection H as <-. exists []. rewrite app_nil_r. split; [reflexivity|constructor].
  - apply bind_ok in H as (d' & E & H). apply bind_ok in E as (v & Ev & E). injection E as <-.
    assert (Hn : ~ In (fst nas) (map fst acc)).
    { cbn in Hnd. apply NoDup_remove_2 in Hnd. intros Q. apply Hnd. apply in_or_app. left. exact Q. }
    rewrite set_named_new in H by exact Hn. apply IH in H as (l & -> & HF).
    + exists ((fst nas, v) :: l). split; [rewrite <- app_assoc; reflexivity|]. constructor; [split; [reflexivity|exact Ev]|exact HF].
    + rewrite map_app, <- app_assoc. exact Hnd.
Qed.
Theorem C65_default_dict : forall spec annotations docstring group_id id s d c, method_signature spec ->
  member_schema spec annotations docstring group_id id = Ok s -> default_dict s = Ok d ->
  Forall2 (fun n nv => fst nv = n /\ exists a, annotated annotations n a /\
      forall v, default_of spec n = Some v -> v <> VObj "builtins.object" [] -> (forall x, a <> App HUnion [x; NoneType] /\ a <> App HUnion [NoneType; x]) ->
        default_shown kind (buildable build_class_schema) (its_dict object_to_dict) a v (snd nv)) (asked spec) d /\
  (~ In "object_class" (asked spec) -> class_default_dict kind build_class_schema object_to_dict s c = Ok (d ++ [("object_class", full_name c)])).
Proof.
  intros spec annotations docstring group_id id s d c Hm Hs Hd.
  destruct (member_schema_eq spec annotations docstring group_id id Hm) as [description E]. rewrite E in Hs. cbv zeta in Hs.
  apply bind_ok in Hs as (r & Er & Hs). injection Hs as <-. pose proof Hd as Hd'. unfold SchemaModel.default_dict in Hd. cbn [steps mapM] in Hd.
  rewrite Er in Hd. cbn [bind concat] in Hd. rewrite app_nil_r in Hd.
  unfold step_schemas in Er. cbn [st_annotations st_entries] in Er. rewrite singles_map in Er. pose proof (property_schemas_ok _ _ _ Er) as HF.
  apply fold_defaults in Hd as (l & -> & HL).
  - assert (Q : Forall2 (fun n nv => fst nv = n /\ exists a, annotated annotations n a /\
      forall v, default_of spec n = Some v -> v <> VObj "builtins.object" [] -> (forall x, a <> App HUnion [x; NoneType] /\ a <> App HUnion [NoneType; x]) ->
        default_shown kind (buildable build_class_schema) (its_dict object_to_dict) a v (snd nv)) (asked spec) l).
    { clear -HF HL. remember (map (attribute_of spec annotations docstring) (asked spec)) as ats eqn:E. revert E l HL. generalize (asked spec) as names.
      induction HF as [|at_ [k [a at']] ats r (H1 & H2 & H3 & _) HF IH]; intros [|n names] E l HL; try discriminate.
      { inversion HL. constructor. }
      cbn in E, H1, H2, H3. injection E as E1 E2. inversion HL as [|? y ? l' Hy HL']; subst. constructor; [|apply IH; [reflexivity|assumption]].
      destruct Hy as [H4 H5]. split; [rewrite H4; reflexivity|]. exists a. split; [exact H3|].
      intros v Hv Hu Ho. cbn [a_default attribute_of fst snd] in H5. rewrite Hv in H5. apply default_value_iff in H5; [exact H5| |].
      - unfold has_default, is_undefined. destruct v as [| | | | | | | |c [|]|]; try reflexivity. destruct (String.eqb c "builtins.object") eqn:Q; [|reflexivity].
        apply String.eqb_eq in Q. congruence.
      - unfold optional. destruct a as [| | | | | | |h args| |]; try reflexivity. destruct h; try reflexivity.
        apply optional_false. intros x. destruct (Ho x). split; congruence. }
    split; [exact Q|]. intros Hn. unfold class_default_dict. rewrite Hd'. cbn [bind app]. rewrite set_named_new; [reflexivity|].
    intros Hin. apply Hn. clear -Q Hin. cbn [app] in Hin. induction Q as [|n nv names l (<- & _) Q IH]; [destruct Hin|]. destruct Hin as [<-|Hin]; [left; reflexivity|right; auto].
  - cbn. rewrite (forall2_fst _ _ _ HF), names_of. apply asked_nodup, Hm.
Qed.

(** Only the arguments with a default value are in the default value of a schema. *)
Lemma fold_values (r : list (string * (ann * attribute))) acc d : NoDup (map fst acc ++ map fst r) ->
  foldM (fun d nas => if has_default (a_default (snd (snd nas))) then
                        let* v := default_value kind build_class_schema object_to_dict (fst (snd nas)) (a_default (snd (snd nas))) in
                        Ok (set_named (fst nas) v d)
                      else Ok d) r acc = Ok d ->
  exists l, d = acc ++ l /\ map fst l = map fst (filter (fun nas => has_default (a_default (snd (snd nas)))) r).
Proof.
  revert acc; induction r as [|nas r IH]; intros acc Hnd H; cbn [foldM] in H.
  - injection H as <-. exists []. rewrite app_nil_r. split; reflexivity.
  - cbn [filter]. destruct (has_default (a_default (snd (snd nas)))).
    + apply bind_ok in H as (d' & E & H). apply bind_ok in E as (v & Ev & E). injection E as <-.
      assert (Hn : ~ In (fst nas) (map fst acc)).
      { cbn in Hnd. apply NoDup_remove_2 in Hnd. intros Q. apply Hnd. apply in_or_app. left. exact Q. }
      rewrite set_named_new in H by exact Hn. apply IH in H as (l & -> & HF).
      * exists ((fst nas, v) :: l). split; [rewrite <- app_assoc; reflexivity|]. cbn. rewrite HF. reflexivity.
      * rewrite map_app, <- app_assoc. exact Hnd.
    + cbn [bind] in H. apply IH; [|exact H]. cbn in Hnd. apply NoDup_remove_1 in Hnd. exact Hnd.
Qed.
Theorem C65_default_value : forall spec annotations docstring group_id id s d, method_signature spec -> no_undefined spec ->
  member_schema spec annotations docstring group_id id = Ok s -> schema_default_value kind build_class_schema object_to_dict s = Ok d ->
  map fst d = filter (fun n => match default_of spec n with Some _ => true | None => false end) (asked spec).
Proof.
  intros spec annotations docstring group_id id s d Hm Hu Hs Hd.
  destruct (member_schema_eq spec annotations docstring group_id id Hm) as [description E]. rewrite E in Hs. cbv zeta in Hs.
  apply bind_ok in Hs as (r & Er & Hs). injection Hs as <-. unfold schema_default_value in Hd. cbn [steps mapM] in Hd.
  rewrite Er in Hd. cbn [bind concat] in Hd. rewrite app_nil_r in Hd.
  unfold step_schemas in Er. cbn [st_annotations st_entries] in Er. rewrite singles_map in Er. pose proof (property_schemas_ok _ _ _ Er) as HF.
  apply fold_values in Hd as (l & -> & Hl).
  - cbn [app]. rewrite Hl. clear -HF Hu. remember (map (attribute_of spec annotations docstring) (asked spec)) as ats eqn:E. revert E. generalize (asked spec) as names.
    induction HF as [|at_ [k [a at']] ats r (H1 & H2 & _) HF IH]; intros [|n names] E; try discriminate; [reflexivity|].
    cbn in E, H1, H2. injection E as E1 E2. subst. cbn [filter fst snd a_default attribute_of].
    replace (has_default match default_of spec n with Some v => v | None => UNDEFINED end) with (match default_of spec n with Some _ => true | None => false end).
    + destruct (default_of spec n); cbn [map fst a_name attribute_of]; rewrite (IH names eq_refl); reflexivity.
    + specialize (Hu n). destruct (default_of spec n) as [v|]; [|reflexivity]. specialize (Hu v eq_refl). unfold has_default, is_undefined.
      destruct v as [| | | | | | | |c [|]|]; try reflexivity. destruct (String.eqb c "builtins.object") eqn:Q; [|reflexivity]. apply String.eqb_eq in Q. congruence.
  - cbn. rewrite (forall2_fst _ _ _ HF), names_of. apply asked_nodup, Hm.
Qed.

(** The schema of a class is the one of its __init__, with its name and whether it is standalone. *)
Theorem C65_class : forall s c v, class_schema_to_dict kind build_class_schema object_to_dict s c = Ok v ->
  exists d e b, v = VDict d /\ schema_dict s [] = Ok (VDict e) /\ kind c = KDessia b /\
    shows d "classes" (VList [full_name c]) /\ shows d "standaloneInDb" (VBool b) /\
    forall k, k <> "classes" -> k <> "standaloneInDb" -> PyValue.lookup (KStr k) d = PyValue.lookup (KStr k) e.
Proof.
  intros s c v H. unfold class_schema_to_dict in H. apply bind_ok in H as (w & Ew & H). apply bind_ok in H as (b & Eb & H).
  assert (Hw : exists e, w = VDict e).
  { unfold SchemaModel.schema_dict in Ew. apply bind_ok in Ew as (? & _ & Ew). apply bind_ok in Ew as (? & _ & Ew). injection Ew as <-. eauto. }
  destruct Hw as [e ->]. injection H as <-. exists (update e [(KStr "classes", VList [VStr (text c)]); (KStr "standaloneInDb", VBool b)]), e, b.
  split; [reflexivity|]. split; [exact Ew|]. split; [cbn in Eb; destruct (kind c); congruence|].
  split; [|split].
  - unfold shows. rewrite lookup_update. reflexivity.
  - unfold shows. rewrite lookup_update. reflexivity.
  - intros k H1 H2. rewrite lookup_update. cbn [rev app PyValue.lookup].
    destruct (key_eqb (KStr k) (KStr "standaloneInDb")) eqn:E1; [apply key_eqb_eq in E1; congruence|].
    destruct (key_eqb (KStr k) (KStr "classes")) eqn:E2; [apply key_eqb_eq in E2; congruence|]. reflexivity.
Qed.

(** What a docstring says of an argument is in its form, when all the names it documents are arguments
    whose annotations can be written. *)
Theorem C65_documentation : forall annotations description params,
  well_written description params -> 
  (forall n d t, In (n, d, t) params -> exists a, annotated annotations (string_of_list_ascii n) a /\ written kind a) ->
  (forall before n d t after, params = before ++ (n, d, t) :: after -> ~ In n (map (fun p => fst (fst p)) after) ->
     exists shown, documented kind annotations (Some (doc_text description params)) (string_of_list_ascii n) = string_of_list_ascii shown /\ trimmed d shown) /\
  (forall n, ~ In n (map (fun p => fst (fst p)) params) ->
     documented kind annotations (Some (doc_text description params)) (string_of_list_ascii n) = "").
Proof.
  intros annotations description params Hw Ha.
  pose (ann_of := fun m => option_map (fun a => let* _ := get_schema kind a in let* _ := serialized kind a in Ok tt)
                                                (SignatureModel.get_name (text m) annotations)).
  assert (Hd : Forall (fun p => documentable ann_of (fst (fst p))) params).
  { rewrite Forall_forall. intros [[n d] t] Hin. destruct (Ha n d t Hin) as (a & Hn & Hwr). apply get_name_annotated in Hn. unfold documentable, ann_of. cbn [fst].
    unfold text. rewrite Hn. cbn [option_map]. rewrite (written_schema kind a Hwr). cbn [bind].
    destruct (written_serialized kind a Hwr) as (s & -> & _). reflexivity. }
  destruct (C63_parsed ann_of description params Hw Hd) as (shown & descriptions & E & _ & H1 & H2).
  unfold documented. fold ann_of. rewrite E. cbn [snd]. split.
  - intros before n d t after Hp Hn. rewrite list_ascii_of_string_of_list_ascii. eexists; split; [reflexivity|]. eapply H1; eassumption.
  - intros n Hn. rewrite list_ascii_of_string_of_list_ascii, H2 by exact Hn. reflexivity.
Qed.
End Schema.

(** * What one does not expect *)

(** Without a default value, some arguments have an object that cannot be written as their default. *)
Theorem C65_undefined_refuted : forall kind build object_to_dict a,
  a = AnyType \/ a = NoneType \/ (exists l, a = Enum l) \/ (exists x, a = App HUnion [x; NoneType]) \/ (exists c, a = Class c /\ kind c = KFile) ->
  default_value kind build object_to_dict a UNDEFINED = Ok UNDEFINED /\ ~ json UNDEFINED.
Proof.
  intros kind build object_to_dict a H. split; [|intros J; inversion J].
  destruct H as [->|[->|[[l ->]|[[x ->]|(c & -> & K)]]]]; try reflexivity.
  - cbn [default_value]. replace (union_is_default_value [x; NoneType]) with true; [reflexivity|]. destruct x; reflexivity.
  - cbn. rewrite K. reflexivity.
Qed.

(** The default dictionary of an Optional keeps the object itself, where the form has its dictionary. *)
Theorem C65_optional_refuted : forall kind build object_to_dict x v,
  default_value kind build object_to_dict (App HUnion [x; NoneType]) v = Ok v.
Proof. intros. cbn [default_value]. replace (union_is_default_value [x; NoneType]) with true; [reflexivity|]. destruct x; reflexivity. Qed.

(** * A class with three arguments *)
Definition part_spec : argspec :=
  {| SignatureModel.args := ["self"; "inner_size"; "parts"; "color"]; SignatureModel.defaults := Some [VNone; VStr "red"] |}.
Definition part_annotations : list (string * ann) :=
  [("color", Enum [chars "red"; chars "blue"]); ("inner_size", Builtin Float); ("parts", App HUnion [App HList [cls "forms.Part"]; NoneType])].
Definition part_docstring : option str := Some (chars "A part. :param inner_size: In meters. :param color: Of the part").
Example class_case : method_signature part_spec /\ no_undefined part_spec /\ asked part_spec = ["inner_size"; "parts"; "color"] /\
  exists s v, member_schema kinds part_spec part_annotations part_docstring "g" "i" = Ok s /\
    class_schema_to_dict kinds (fun _ => Ok tt) as_dict s (list_ascii_of_string "forms.Part") = Ok v /\
    class_default_dict kinds (fun _ => Ok tt) as_dict s (list_ascii_of_string "forms.Part") =
      Ok [("inner_size", VNone); ("parts", VNone); ("color", VStr "red"); ("object_class", VStr "forms.Part")].
Proof.
  split; [|split; [|split; [reflexivity|]]].
  - split; [split; [repeat constructor; cbn; intuition discriminate|cbn; repeat constructor]|]. exists "self". eexists. split; [reflexivity|left; reflexivity].
  - intros n v H. unfold default_of, SignatureProps.python_default in H. apply get_name_some in H. cbn in H. destruct H as [H|[H|[]]]; injection H as <- <-; discriminate.
  - eexists; eexists; split; [reflexivity|]. split; reflexivity.
Qed.
Example documentation_case : documented kinds part_annotations part_docstring "inner_size" = "In meters." /\
  documented kinds part_annotations part_docstring "parts" = "".
Proof. split; reflexivity. Qed.

Print Assumptions C65_forms.
Print Assumptions C65_built.
Print Assumptions C65_written.
Print Assumptions C65_default_dict.
Print Assumptions C65_default_value.
Print Assumptions C65_class.
Print Assumptions C65_documentation.
Print Assumptions C65_undefined_refuted.
Print Assumptions C65_optional_refuted.

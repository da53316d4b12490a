(** C64: the form of an annotation. *)
From Coq Require Import ZArith QArith Ascii String List Bool Arith.
From Verif Require Import Base BaseProofs AnnotationModel AnnotationProofs AnnotationProps PyValue SchemaModel SchemaSpec SchemaProofs.
Import ListNotations.
Local Open Scope string_scope.
Local Open Scope list_scope.

(** [kind] says what classes are, [build] whether the schema of a class can be built and
    [object_to_dict] what the to_dict method of objects gives. *)
Definition buildable (build : str -> res unit) (c : str) : Prop := build c = Ok tt.
Definition its_dict (object_to_dict : val -> res val) (v w : val) : Prop := object_to_dict v = Ok w.

(** Whatever the dictionary of an annotation, it is its form. *)
Theorem C64_form : forall kind build object_to_dict a at_ v, to_dict kind build object_to_dict a at_ = Ok v ->
  form kind (buildable build) (its_dict object_to_dict) a (place_of at_) v.
Proof. intros kind build object_to_dict a at_ v H. exact (to_dict_form kind build object_to_dict a at_ v H). Qed.

(** There is one for each annotation that is described, unless there is a list of an Optional of a
    Literal or of a tuple of any length, or the default value is not one it takes. *)
Theorem C64_described : forall kind build object_to_dict a at_, described kind a -> typed a \/ a = NoneValue -> file_safe a ->
  (forall v, p_default (place_of at_) = Some v -> takes kind (buildable build) (its_dict object_to_dict) a v) ->
  exists v, to_dict kind build object_to_dict a at_ = Ok v.
Proof.
  intros kind build object_to_dict a at_ Hd Ht Hf Hk. apply to_dict_total; try assumption. intros Q. apply Hk.
  unfold has_default, is_undefined, place_of in *. cbn. destruct (a_default at_) as [| | | | | | | | c [|]|]; try reflexivity.
  destruct (String.eqb c "builtins.object"); [discriminate|reflexivity].
Qed.

(** and for no other annotation. *)
Theorem C64_refused : forall kind build object_to_dict a at_ v, to_dict kind build object_to_dict a at_ = Ok v ->
  typed a \/ a = NoneValue -> described kind a.
Proof. intros. eapply to_dict_described; eassumption. Qed.

(** The default value must be one the annotation takes. *)
Lemma form_takes kind class_ok dict_of a p v w : form kind class_ok dict_of a p v -> p_default p = Some w -> takes kind class_ok dict_of a w.
Proof.
  intros H Hp. induction H;
    try (match goal with C : common _ _ _ _ _ _ _ _ |- _ =>
           unfold common in C; rewrite Hp in C; destruct C as (_ & _ & _ & _ & _ & _ & _ & shown & Hu & _); eapply tk_shown; exact Hu end).
  - apply tk_optional. auto.
  - apply tk_optional'.
Qed.
Theorem C64_default : forall kind build object_to_dict a at_ v w, to_dict kind build object_to_dict a at_ = Ok v ->
  p_default (place_of at_) = Some w -> takes kind (buildable build) (its_dict object_to_dict) a w.
Proof. intros. eapply form_takes; [eapply C64_form; eassumption|assumption]. Qed.

(** A form can be written in json when its default value can. *)
Theorem C64_json : forall kind build object_to_dict a at_ v, to_dict kind build object_to_dict a at_ = Ok v ->
  exists d, v = VDict d /\ ((forall w, shows d "defaultValue" w -> json w) -> json v).
Proof.
  intros kind build object_to_dict a at_ v H. destruct (to_dict_dict _ _ _ _ _ _ H) as [d ->]. exists d. split; [reflexivity|].
  intros Hw. eapply to_dict_json; eassumption.
Qed.

(** The typing that the form shows is read back as the annotation. *)
Theorem C64_read_back : forall importable kind build object_to_dict a at_ v, to_dict kind build object_to_dict a at_ = Ok v ->
  plain importable a -> ~ nested_ellipsis a ->
  exists d s, v = VDict d /\ shows d "pythonTyping" (VStr (string_of_list_ascii s)) /\ deserialize importable (Some s) = Ok a.
Proof.
  intros importable kind build object_to_dict a at_ v H Hp Hn. destruct (C15_roundtrip importable a Hp Hn) as (s & E1 & E2).
  apply C64_form in H. inversion H; subst; try (exfalso; inversion Hp as [| | | |? ? _ _ _ Hf| |]; subst; inversion Hf as [|? ? Hx Hf']; inversion Hf' as [|? ? Hy _]; solve [inversion Hx|inversion Hy]);
    (match goal with C : common _ _ _ _ _ _ _ _ |- _ => destruct C as ((s' & Es & Hs) & _) end;
     rewrite E1 in Es; injection Es as <-; do 2 eexists; split; [reflexivity|]; split; [exact Hs|exact E2]).
Qed.

(** * What one does not expect *)
Definition cls (s : string) : ann := Class (list_ascii_of_string s).
Definition kinds (c : str) : ckind :=
  let s := string_of_list_ascii c in
  if String.eqb s "measures.Distance" then KMeasure "m" else if String.eqb s "files.BinaryFile" then KFile
  else if String.eqb s "forms.Part" then KDessia true else if String.eqb s "forms.Shape" then KDessia false else KOther.
Definition an_attribute (d : val) : attribute :=
  {| a_name := "x_size"; a_default := d; a_title := ""; a_editable := true; a_desc := "" |}.
Definition as_dict (v : val) : res val := match v with VObj c attrs => Ok (VDict attrs) | _ => Err AttributeError end.
Definition its_form (a : ann) (d : val) : res val := to_dict kinds (fun _ => Ok tt) as_dict a (an_attribute d).
Definition some_part : val := VObj "forms.Part" [(KStr "name", VStr "p")].

(** A measure does not take None, nor integers, as default values; selectors and Type do not take None. *)
Theorem C64_none_default_refuted :
  its_form (cls "measures.Distance") VNone = Err ValueError /\ its_form (cls "measures.Distance") (VInt 2) = Err ValueError /\
  its_form (App HUnion [cls "measures.Distance"; NoneType]) VNone = Err ValueError /\
  its_form (App HUnion [App HMethodType [cls "forms.Part"]; NoneType]) VNone = Err AttributeError /\
  its_form (App HUnion [App HType [cls "forms.Part"]; NoneType]) VNone = Err AttributeError /\
  (exists v, its_form (App HUnion [cls "forms.Part"; NoneType]) VNone = Ok v).
Proof. repeat split; try reflexivity. eexists; reflexivity. Qed.

(** An Optional is described when what it is made from is, but not always inside a list. *)
Theorem C64_optional_inside_refuted : forall l kind build object_to_dict at_, l <> [] ->
  (exists v, to_dict kinds (fun _ => Ok tt) as_dict (App HUnion [Enum l; NoneType]) (an_attribute UNDEFINED) = Ok v) /\
  to_dict kind build object_to_dict (App HList [App HUnion [Enum l; NoneType]]) at_ = Err NotImplementedError /\
  to_dict kind build object_to_dict (App HList [App HUnion [Repeat (Builtin Int); NoneType]]) at_ = Err NotImplementedError.
Proof.
  intros [|c l] kind build object_to_dict at_ H; [congruence|]. split; [eexists; reflexivity|]. split; reflexivity.
Qed.

(** A Union with None first has the form of None, whatever comes next. *)
Theorem C64_none_first_refuted : forall kind build object_to_dict a b at_,
  to_dict kind build object_to_dict (App HUnion [NoneType; a]) at_ = to_dict kind build object_to_dict (App HUnion [NoneType; b]) at_ /\
  to_dict kind build object_to_dict (App HUnion [NoneType; a]) at_ = to_dict kind build object_to_dict NoneType at_.
Proof. intros. split; reflexivity. Qed.

(** A list of files is one form for several files, unless they are optional. *)
Theorem C64_files_refuted : exists d e, its_form (App HList [cls "files.BinaryFile"]) UNDEFINED = Ok (VDict d) /\ shows d "formType" (VStr "multiple_files") /\
  its_form (App HList [App HUnion [cls "files.BinaryFile"; NoneType]]) UNDEFINED = Ok (VDict e) /\ shows e "formType" (VStr "homogeneous_sequence").
Proof. eexists; eexists; split; [reflexivity|]. split; [reflexivity|]. split; reflexivity. Qed.

(** The default values of lists and dictionaries are lost. *)
Theorem C64_list_default_refuted : forall kind build object_to_dict h args at_ v, In h [HList; HIterator; HDict] ->
  has_default (a_default at_) = true -> to_dict kind build object_to_dict (App h args) at_ = Ok v ->
  exists d, v = VDict d /\ shows d "defaultValue" VNone.
Proof.
  intros kind build object_to_dict h args at_ v Hh Hd H. apply C64_form in H.
  assert (E : p_default (place_of at_) = Some (a_default at_)).
  { unfold has_default, is_undefined, place_of in *. cbn. destruct (a_default at_) as [| | | | | | | | c [|]|]; try reflexivity.
    destruct (String.eqb c "builtins.object"); [discriminate|reflexivity]. }
  assert (L : forall shown, default_shown kind (buildable build) (its_dict object_to_dict) (App h args) (a_default at_) shown -> shown = VNone).
  { intros w Hw. cbn in Hh. destruct Hh as [<-|[<-|[<-|[]]]]; inversion Hw; subst; cbn in *; try reflexivity; try contradiction; intuition discriminate. }
  assert (C : forall d t f, common kind (buildable build) (its_dict object_to_dict) (App h args) (place_of at_) d t f -> shows d "defaultValue" VNone).
  { intros d t f C. unfold common in C. rewrite E in C. destruct C as (_ & _ & _ & _ & _ & _ & _ & shown & Hw & Hs). rewrite (L _ Hw) in Hs. exact Hs. }
  inversion H; subst; try (exfalso; cbn in Hh; intuition discriminate); eauto.
Qed.

(** The default value of a tuple is not serialized: an object in it stays an object. *)
Theorem C64_tuple_default_refuted : exists v, its_form (App HTuple [cls "forms.Part"; Builtin Int]) (VTuple [some_part; VInt 1]) = Ok v /\ ~ json v /\
  exists w, its_form (cls "forms.Part") some_part = Ok w /\ json w.
Proof.
  eexists; split; [reflexivity|]. split.
  - intros J. inversion J as [| | | | | | |d Hd]; subst. rewrite Forall_forall in Hd.
    destruct (Hd (KStr "defaultValue", VTuple [some_part; VInt 1])) as [_ Q]; [cbn; tauto|]. cbn in Q. inversion Q; subst.
    inversion H0; subst. inversion H2.
  - destruct (C64_json kinds (fun _ => Ok tt) as_dict (cls "forms.Part") (an_attribute some_part) _ eq_refl) as (d & E & J).
    eexists; split; [reflexivity|]. apply J. intros w Hw. injection E as <-. vm_compute in Hw. injection Hw as <-. repeat constructor. cbn. eauto.
Qed.

(** A measure is shown as a plain Measure, whatever its class; what a form says of the class of a measure without value does not exist. *)
Theorem C64_measure_refuted : forall q,
  default_value kinds (fun _ => Ok tt) as_dict (cls "measures.Distance") (VObj "measures.Distance" [(KStr "value", VFloat q)]) =
    Ok (VDict [(KStr "object_class", VStr "dessia_common.measures.Measure"); (KStr "value", VFloat q)]) /\
  default_value kinds (fun _ => Ok tt) as_dict (cls "measures.Distance") UNDEFINED =
    Ok (VDict [(KStr "object_class", VStr "dessia_common.measures.type"); (KStr "value", VNone)]).
Proof. intros q. split; reflexivity. Qed.

(** * Cases *)
Definition a_typing : ann :=
  App HTuple [cls "forms.Part"; App HList [cls "files.BinaryFile"]; App HDict [Builtin Str; Builtin Float];
              App HUnion [cls "forms.Part"; cls "forms.Shape"]; App HUnion [Enum [chars "a"; chars "b"]; NoneType];
              App HMethodType [cls "forms.Part"]; App HInstanceOf [cls "forms.Shape"]; App HType [cls "forms.Part"];
              cls "measures.Distance"; AnyType].
Example described_case : described kinds a_typing /\ typed a_typing /\ file_safe a_typing.
Proof.
  split; [|split].
  - unfold a_typing. apply d_tuple; [|cbn; intuition discriminate].
    repeat (apply Forall_cons || apply Forall_nil);
      [apply d_class|apply d_sequence|apply d_dict|apply d_union|apply d_optional|apply d_selector|apply d_instance|apply d_class_of|apply d_class|apply d_any];
      try (vm_compute; discriminate); try (cbn; tauto); try (constructor; vm_compute; discriminate); try (repeat constructor; vm_compute; discriminate).
    + intros c Hc. cbn in Hc. destruct Hc as [Hc|[Hc|[]]]; injection Hc as <-; eexists; reflexivity.
    + repeat constructor; eexists; reflexivity.
    + eexists; reflexivity.
  - repeat constructor.
  - assert (A : forall h args, Forall file_safe args -> h <> HList -> h <> HIterator -> file_safe (App h args)).
    { intros h args H1 H2 H3. apply fs_app; [assumption|]. cbn. intuition congruence. }
    unfold a_typing, cls.
    repeat (apply Forall_cons || apply Forall_nil || apply fs_class || apply fs_any || apply fs_enum || apply fs_none || apply fs_builtin
            || (apply A; [|discriminate|discriminate])).
    apply fs_app; [repeat constructor|]. intros _. repeat constructor.
Qed.
Example read_back_case : plain (fun _ => true) (App HDict [Builtin Str; Builtin Float]) /\ ~ nested_ellipsis (App HDict [Builtin Str; Builtin Float]) /\
  exists v, its_form (App HDict [Builtin Str; Builtin Float]) UNDEFINED = Ok v.
Proof.
  split; [|split]; [| |eexists; reflexivity].
  - constructor; try reflexivity; try discriminate. repeat constructor.
  - intros N. apply fine_spec in N. discriminate.
Qed.
Example default_case : its_form (Builtin Float) (VFloat (Fin (1 # 2))) =
  Ok (VDict [(KStr "pythonTyping", VStr "float"); (KStr "type", VStr "number"); (KStr "formType", VStr "number"); (KStr "key", VStr "x_size");
             (KStr "title", VStr "x Size"); (KStr "editable", VBool true); (KStr "description", VStr ""); (KStr "defaultValue", VFloat (Fin (1 # 2)))]).
Proof. reflexivity. Qed.
Example list_default_case : exists v, its_form (App HList [Builtin Int]) (VList [VInt 1]) = Ok v.
Proof. eexists; reflexivity. Qed.

Print Assumptions C64_form.
Print Assumptions C64_described.
Print Assumptions C64_refused.
Print Assumptions C64_default.
Print Assumptions C64_json.
Print Assumptions C64_read_back.
Print Assumptions C64_none_default_refuted.
Print Assumptions C64_optional_inside_refuted.
Print Assumptions C64_none_first_refuted.
Print Assumptions C64_files_refuted.
Print Assumptions C64_list_default_refuted.
Print Assumptions C64_tuple_default_refuted.
Print Assumptions C64_measure_refuted.

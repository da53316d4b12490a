(** What the form of an annotation should be, said without the code: which annotations have a
    form, what each form shows, which default values it takes. *)
From Coq Require Import ZArith QArith Ascii String List Bool Arith DecimalString.
From Verif Require Import Base AnnotationModel PyValue SchemaModel.
From Verif Require DocstringModel.
Import ListNotations.
Local Open Scope string_scope.
Local Open Scope list_scope.
Local Open Scope nat_scope.

Definition shows (d : list (key * val)) (k : string) (v : val) : Prop := PyValue.lookup (KStr k) d = Some v.
Definition hides (d : list (key * val)) (k : string) : Prop := PyValue.lookup (KStr k) d = None.
Definition full_name (c : str) : val := VStr (string_of_list_ascii c).

(** Where a form is: what it is the form of. *)
Record place := { p_key : string; p_title : string; p_editable : bool; p_description : string; p_default : option val }.
(** The form of the i-th argument of a typing *)
Definition inside (p : place) (i : nat) : place :=
  let i := NilZero.string_of_uint (Nat.to_uint i) in
  {| p_key := p_key p ++ "/" ++ i; p_title := p_title p ++ "/" ++ i; p_editable := p_editable p;
     p_description := ""; p_default := None |}.

Section Forms.
Variable kind : str -> ckind.
Variable class_ok : str -> Prop.                (* the schema of a class can be built *)
Variable dict_of : val -> val -> Prop.          (* an object and its dictionary *)

Definition dessia (c : str) : Prop := exists b, kind c = KDessia b.
Definition none_class : str -> Prop := fun c => kind c = KOther.

(** Annotations that can be written down *)
Inductive written : ann -> Prop :=
| w_builtin b : written (Builtin b)
| w_class c : kind c <> KOther -> written (Class c)
| w_any : written AnyType
| w_none : written NoneType
| w_type : written BareType
| w_variable n : written (TypeVariable n)
| w_enum values : written (Enum values)
| w_repeat x : written x -> written (Repeat x)
| w_optional x : written x -> written (App HUnion [x; NoneType])
| w_optional' x : written (App HUnion [NoneType; x])
| w_app h args : h <> HSubclass ->
    (h = HUnion -> forall x, args <> [x; NoneType] /\ args <> [NoneType; x]) ->
    Forall written args -> written (App h args).

(** What AttributeType, MethodType and views select from: Type, or a class *)
Inductive selectable : ann -> Prop :=
| sel_type : selectable BareType
| sel_class c : kind c <> KOther -> selectable (Class c)
| sel_builtin b : selectable (Builtin b)
| sel_none : selectable NoneType
| sel_variable n : selectable (TypeVariable n).
Definition selector (h : head) : Prop :=
  In h [HMethodType; HClassMethodType; HAttributeType; HClassAttributeType; HCadViewType; HMarkdownType; HPlotDataType].

(** Annotations that have a form *)
Inductive described : ann -> Prop :=
| d_builtin b : described (Builtin b)
| d_class c : kind c <> KOther -> described (Class c)
| d_any : described AnyType
| d_none : described NoneType
| d_none_value : described NoneValue
| d_type : described BareType
| d_variable n : described (TypeVariable n)
| d_enum values : described (Enum values)
| d_repeat x : described x -> described (Repeat x)
| d_optional x : described x -> described (App HUnion [x; NoneType])
| d_optional' x : described (App HUnion [NoneType; x])
| d_union args : (forall c, In (Class c) args -> dessia c) -> Forall (fun a => exists c, a = Class c) args ->
    described (App HUnion args)
| d_tuple args : Forall described args -> ~ In NoneValue args -> described (App HTuple args)
| d_sequence h x rest : In h [HList; HIterator] -> described x -> Forall written (x :: rest) -> described (App h (x :: rest))
| d_dict b : described (App HDict [Builtin Str; Builtin b])
| d_instance c rest : dessia c -> Forall written rest -> described (App HInstanceOf (Class c :: rest))
| d_class_of args : Forall written args -> described (App HType args)
| d_selector h x rest : selector h -> selectable x -> Forall written rest -> described (App h (x :: rest)).

(** No Optional of a Literal or of a tuple of any length: what the arguments of lists are, as files are searched in them *)
Inductive searchable : ann -> Prop :=
| sr_builtin b : searchable (Builtin b)
| sr_class c : searchable (Class c)
| sr_any : searchable AnyType
| sr_none : searchable NoneType
| sr_none_value : searchable NoneValue
| sr_type : searchable BareType
| sr_variable n : searchable (TypeVariable n)
| sr_enum values : searchable (Enum values)
| sr_repeat x : searchable x -> searchable (Repeat x)
| sr_app h args : Forall searchable args ->
    (h = HUnion -> forall x, args = [x; NoneType] -> (forall y, x <> Repeat y) /\ (forall l, x <> Enum l) /\ (forall l, x <> App HUnion l)) ->
    searchable (App h args).
Inductive file_safe : ann -> Prop :=
| fs_builtin b : file_safe (Builtin b)
| fs_class c : file_safe (Class c)
| fs_any : file_safe AnyType
| fs_none : file_safe NoneType
| fs_none_value : file_safe NoneValue
| fs_type : file_safe BareType
| fs_variable n : file_safe (TypeVariable n)
| fs_enum values : file_safe (Enum values)
| fs_repeat x : file_safe x -> file_safe (Repeat x)
| fs_app h args : Forall file_safe args -> (In h [HList; HIterator] -> Forall searchable args) -> file_safe (App h args).

(** The default value a form shows for a default value of Python *)
Definition as_measure (v : val) : val :=
  VDict [(KStr "object_class", VStr "dessia_common.measures.Measure"); (KStr "value", v)].
Inductive object_shown (v : val) : val -> Prop :=
| os_none : v = VNone -> object_shown v VNone
| os_object c attrs w : v = VObj c attrs -> dict_of v w -> object_shown v w.
Inductive default_shown : ann -> val -> val -> Prop :=
| ds_same a v : (match a with
                 | Builtin _ | NoneType | NoneValue | TypeVariable _ | AnyType | Enum _ | Repeat _ | App HTuple _ => True
                 | Class c => kind c = KFile \/ kind c = KDisplay
                 | _ => False end) -> default_shown a v v
| ds_lost h args v : In h [HList; HIterator; HDict] -> default_shown (App h args) v VNone
| ds_object c v w : dessia c -> class_ok c -> object_shown v w -> default_shown (Class c) v w
| ds_union args v w : (forall x, args <> [x; NoneType] /\ args <> [NoneType; x]) -> object_shown v w ->
    default_shown (App HUnion args) v w
| ds_instance c rest v w : class_ok c -> object_shown v w -> default_shown (App HInstanceOf (Class c :: rest)) v w
| ds_type n b : default_shown BareType (VClass n b) (VStr n)
| ds_class_of x rest n b : default_shown (App HType (x :: rest)) (VClass n b) (VStr n)
| ds_selector h args c attrs w : selector h -> dict_of (VObj c attrs) w -> default_shown (App h args) (VObj c attrs) w
| ds_float c u q : kind c = KMeasure u -> default_shown (Class c) (VFloat q) (as_measure (VFloat q))
| ds_measure c u c' u' q : kind c = KMeasure u -> kind (list_ascii_of_string c') = KMeasure u' ->
    default_shown (Class c) (VObj c' [(KStr "value", VFloat q)]) (as_measure (VFloat q))
| ds_measure_dict c u items q : kind c = KMeasure u -> shows items "value" (VFloat q) ->
    default_shown (Class c) (VDict items) (as_measure (VFloat q))
| ds_measure_int c u items z : kind c = KMeasure u -> shows items "value" (VInt z) ->
    default_shown (Class c) (VDict items) (as_measure (VFloat (Fin (inject_Z z))))
| ds_measure_bool c u items b : kind c = KMeasure u -> shows items "value" (VBool b) ->
    default_shown (Class c) (VDict items) (as_measure (VFloat (Fin (if b then 1 else 0)))).

(** Default values that can be shown: Optional is transparent, None first hides what follows *)
Inductive takes : ann -> val -> Prop :=
| tk_shown a v w : default_shown a v w -> takes a v
| tk_optional x v : takes x v -> takes (App HUnion [x; NoneType]) v
| tk_optional' x v : takes (App HUnion [NoneType; x]) v.

(** What every form shows: the annotation, whose form it is, what kind of form *)
Definition common (a : ann) (p : place) (d : list (key * val)) (type_ : val) (form_type : string) : Prop :=
  (exists s, serialize a = Ok s /\
     shows d "pythonTyping" match s with Some s => VStr (string_of_list_ascii s) | None => VNone end) /\
  shows d "key" (VStr (p_key p)) /\ shows d "title" (VStr (p_title p)) /\
  shows d "editable" (VBool (p_editable p)) /\ shows d "description" (VStr (p_description p)) /\
  shows d "type" type_ /\ shows d "formType" (VStr form_type) /\
  match p_default p with
  | None => hides d "defaultValue"
  | Some v => exists w, default_shown a v w /\ shows d "defaultValue" w
  end.

Definition a_class (d : list (key * val)) : Prop :=
  shows d "isClass" (VBool true) /\ shows d "properties" (VDict [(KStr "name", VDict [(KStr "type", VStr "string")])]).

Definition builtin_form (b : builtin) : string :=
  match b with Int => "number" | Float => "number" | Bool => "boolean" | Str => "string" end.
Definition selector_form (h : head) : string :=
  match h with
  | HMethodType => "methods" | HClassMethodType => "class_methods"
  | HAttributeType => "attributes" | HClassAttributeType => "class_attributes" | _ => "view_selectors"
  end.
Definition selector_decorator (h : head) : option string :=
  match h with
  | HCadViewType => Some "cad_view" | HMarkdownType => Some "markdown_view" | HPlotDataType => Some "plot_data_view"
  | _ => None
  end.
Definition mixed (standalones : list bool) : val :=
  if forallb (fun b => b) standalones then VBool true
  else if forallb negb standalones then VBool false else VNone.
(** The full name of a class *)
Definition named_class (a : ann) (n : string) : Prop :=
  match a with
  | Class c | TypeVariable c => n = string_of_list_ascii c
  | Builtin b => n = ("builtins." ++ match b with Int => "int" | Float => "float" | Bool => "bool" | Str => "str" end)%string
  | NoneType => n = "builtins.NoneType"
  | _ => False
  end.

(** A typing made from files: itself or one of its arguments is; of an Optional only the arguments of what it is made from *)
Inductive of_files : ann -> Prop :=
| of_class c : kind c = KFile -> of_files (Class c)
| of_repeat x : of_files x -> of_files (Repeat x)
| of_argument h args x : (h = HUnion -> forall y, args <> [y; NoneType] /\ args <> [NoneType; y]) -> In x args -> of_files x ->
    of_files (App h args)
| of_optional h args x : In x args -> of_files x -> of_files (App HUnion [App h args; NoneType]).

(** The form of an annotation at a place *)
Inductive form : ann -> place -> val -> Prop :=
| f_builtin b p d : common (Builtin b) p d (VStr (builtin_form b)) (builtin_form b) -> form (Builtin b) p (VDict d)
| f_any p d : common AnyType p d (VStr "object") "not_implemented" ->
    shows d "properties" (VDict [(KStr ".*", VStr ".*")]) -> form AnyType p (VDict d)
| f_generic a p d : a = NoneType \/ a = NoneValue \/ (exists n, a = TypeVariable n) ->
    common a p d (VStr "object") "not_implemented" -> a_class d -> form a p (VDict d)
| f_class_of a p d : a = BareType \/ (exists args, a = App HType args) ->
    common a p d (VStr "object") "class" -> a_class d -> form a p (VDict d)
| f_measure c u p d : kind c = KMeasure u -> common (Class c) p d (VStr "number") "measure" ->
    shows d "siUnit" (VStr u) -> form (Class c) p (VDict d)
| f_file c p d : kind c = KFile -> common (Class c) p d (VStr "text") "file" ->
    shows d "isFile" (VBool true) -> form (Class c) p (VDict d)
| f_object c b p d : kind c = KDessia b -> common (Class c) p d (VStr "object") "custom_instance" ->
    shows d "standaloneInDb" (VBool b) -> shows d "classes" (VList [full_name c]) -> form (Class c) p (VDict d)
| f_display c p d : kind c = KDisplay -> common (Class c) p d VNone "not_implemented" -> form (Class c) p (VDict d)
| f_enum values p d : common (Enum values) p d (VStr "string") "string" ->
    shows d "allowedValues" (VTuple (map full_name values)) -> form (Enum values) p (VDict d)
| f_optional x p v : form x p v -> form (App HUnion [x; NoneType]) p v
| f_optional' x p v : form NoneType p v -> form (App HUnion [NoneType; x]) p v
| f_union args cs bs p d : args = map Class cs -> Forall2 (fun c b => kind c = KDessia b) cs bs ->
    common (App HUnion args) p d (VStr "object") "custom_instance" ->
    shows d "classes" (VList (map full_name cs)) -> shows d "standaloneInDb" (mixed bs) -> form (App HUnion args) p (VDict d)
| f_instance c b rest p d : kind c = KDessia b -> common (App HInstanceOf (Class c :: rest)) p d (VStr "object") "custom_instance" ->
    shows d "instanceOf" (full_name c) -> shows d "classes" (VList [full_name c]) -> shows d "standaloneInDb" (VBool b) ->
    form (App HInstanceOf (Class c :: rest)) p (VDict d)
| f_tuple args p d items : common (App HTuple args) p d (VStr "array") "heterogeneous_sequence" ->
    shows d "additionalItems" (VBool false) -> shows d "items" (VList items) -> List.length items = List.length args ->
    (forall i x v, nth_error args i = Some x -> nth_error items i = Some v -> form x (inside p i) v) ->
    form (App HTuple args) p (VDict d)
| f_repeat x p d v : common (Repeat x) p d (VStr "array") "heterogeneous_sequence" ->
    shows d "additionalItems" (VBool true) -> shows d "items" (VList [v]) -> form x (inside p 0) v ->
    form (Repeat x) p (VDict d)
| f_sequence h x rest p d v form_type : In h [HList; HIterator] -> common (App h (x :: rest)) p d (VStr "array") form_type ->
    (form_type = "multiple_files" /\ of_files (App h (x :: rest)) \/ form_type = "homogeneous_sequence" /\ ~ of_files (App h (x :: rest))) -> shows d "items" v -> form x (inside p 0) v ->
    form (App h (x :: rest)) p (VDict d)
| f_dict b p d v : common (App HDict [Builtin Str; Builtin b]) p d (VStr "object") "dynamic_dict" ->
    shows d "patternProperties" (VDict [(KStr ".*", v)]) -> form (Builtin b) (inside p 1) v ->
    form (App HDict [Builtin Str; Builtin b]) p (VDict d)
| f_selector h x rest p d v : selector h -> common (App h (x :: rest)) p d (VStr "object") "attribute" ->
    shows d "object_class" (VStr ("dessia_common.typings." ++ string_of_list_ascii (head_name h))) ->
    shows d "isAttribute" (VBool true) -> shows d "attributeType" (VStr (selector_form h)) ->
    shows d "properties" (VDict [(KStr "class_", VDict v); (KStr "name", VDict [(KStr "type", VStr "string")])]) ->
    match selector_decorator h with Some s => shows d "decorator" (VStr s) | None => hides d "decorator" end ->
    (* the class it selects from *)
    shows v "key" (VStr (p_key p ++ "/class")) -> shows v "title" (VStr "Class") -> shows v "editable" (VBool (p_editable p)) ->
    shows v "formType" (VStr "class") -> a_class v ->
    (x = BareType /\ hides v "defaultValue" \/ exists n, named_class x n /\ shows v "defaultValue" (VStr n)) ->
    form (App h (x :: rest)) p (VDict d).
End Forms.

(** Values json can write: no object, no class, texts as keys. *)
Inductive json : val -> Prop :=
| j_none : json VNone
| j_bool b : json (VBool b)
| j_int z : json (VInt z)
| j_float f : json (VFloat f)
| j_str s : json (VStr s)
| j_list l : Forall json l -> json (VList l)
| j_tuple l : Forall json l -> json (VTuple l)
| j_dict d : Forall (fun kv => (exists s, fst kv = KStr s) /\ json (snd kv)) d -> json (VDict d).

(** The place of an attribute: its title is its pretty name unless it has one *)
Definition place_of (at_ : attribute) : place :=
  {| p_key := a_name at_;
     p_title := if String.eqb (a_title at_) "" then string_of_list_ascii (DocstringModel.prettyname (list_ascii_of_string (a_name at_)))
                else a_title at_;
     p_editable := a_editable at_; p_description := a_desc at_;
     p_default := match a_default at_ with
                  | VObj c [] => if String.eqb c "builtins.object" then None else Some (a_default at_)
                  | v => Some v
                  end |}.

(** None is not an argument of a typing: Python makes NoneType of it. *)
Inductive typed : ann -> Prop :=
| t_builtin b : typed (Builtin b)
| t_class c : typed (Class c)
| t_any : typed AnyType
| t_none : typed NoneType
| t_type : typed BareType
| t_variable n : typed (TypeVariable n)
| t_enum l : typed (Enum l)
| t_repeat x : typed x -> typed (Repeat x)
| t_app h args : Forall typed args -> typed (App h args).

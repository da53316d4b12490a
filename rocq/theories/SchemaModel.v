(** Model of the schemas of classes, methods and workflows: what the forms of the platform are
    made from (/repo/dessia_common/schemas/core.py, /repo/dessia_common/workflow/core.py). *)
From Coq Require Import ZArith QArith Ascii String List Bool Arith DecimalString.
From Verif Require Import Base AnnotationModel DocstringModel PyValue.
From Verif Require SignatureModel.
Import ListNotations.
Local Open Scope string_scope.
Local Open Scope list_scope.
Local Open Scope nat_scope.

(** What a class is for get_schema: a measure with its unit, a file, a DessiaObject that is
    standalone in db or not, a DisplayObject, or another class. *)
Inductive ckind := KMeasure (si_unit : string) | KFile | KDessia (standalone : bool) | KDisplay | KOther.

(** UNDEFINED, schemas/core.py:31: an object without attribute, that json cannot write. *)
Definition UNDEFINED : val := VObj "builtins.object" [].
Definition is_undefined (v : val) : bool :=
  match v with VObj c [] => String.eqb c "builtins.object" | _ => false end.
(** has_default_value, schemas/core.py:534-536 *)
Definition has_default (v : val) : bool := negb (is_undefined v).

Definition text (s : str) : string := string_of_list_ascii s.
(** [str(i)] *)
Definition str_nat (n : nat) : string := NilZero.string_of_uint (Nat.to_uint n).

(** SchemaAttribute, schemas/core.py:95-103 *)
Record attribute := { a_name : string; a_default : val; a_title : string; a_editable : bool; a_desc : string }.
(** title, schemas/core.py:113-118 *)
Definition title (at_ : attribute) : string :=
  if String.eqb (a_title at_) "" then text (prettyname (list_ascii_of_string (a_name at_))) else a_title at_.
(** SchemaAttribute.to_dict, schemas/core.py:125-127 *)
Definition attribute_dict (at_ : attribute) : list (key * val) :=
  [(KStr "key", VStr (a_name at_)); (KStr "title", VStr (title at_));
   (KStr "editable", VBool (a_editable at_)); (KStr "description", VStr (a_desc at_))].
(** The attribute of an argument of a typing, schemas/core.py:602-609, 1080-1094 *)
Definition sub_attribute (at_ : attribute) (i : nat) : attribute :=
  {| a_name := a_name at_ ++ "/" ++ str_nat i; a_default := UNDEFINED;
     a_title := title at_ ++ "/" ++ str_nat i; a_editable := a_editable at_; a_desc := "" |}.

(** [dict.update(items)] *)
Definition update (d items : list (key * val)) : list (key * val) :=
  fold_left (fun d kv => set_key (fst kv) (snd kv) d) items d.

Section AnyRes.
Variable A : Type.
Variable f : A -> res bool.
(** any(f(x) for x in l) *)
Fixpoint any_res (l : list A) : res bool :=
  match l with
  | [] => Ok false
  | x :: l => let* b := f x in if b then Ok true else any_res l
  end.
End AnyRes.
Arguments any_res {A}.

Section MapIndexed.
Variable A B : Type.
Variable f : nat -> A -> res B.
(** [f(i, x) for i, x in enumerate(l)] *)
Fixpoint map_indexed (i : nat) (l : list A) : res (list B) :=
  match l with
  | [] => Ok []
  | x :: l => let* y := f i x in let* ys := map_indexed (S i) l in Ok (y :: ys)
  end.
End MapIndexed.
Arguments map_indexed {A B}.

Section Schema.
(** The classes; what building the schema of a class gives (ClassSchema.__init__); the method
    to_dict of an object. *)
Variable kind : str -> ckind.
Variable build_class_schema : str -> res unit.
Variable object_to_dict : val -> res val.

(** get_schema, typing_schema, custom_class_schema, schemas/core.py:1706-1728, 1781-1808: whether
    there is a schema.  The schemas of arguments are not built yet. *)
Definition get_schema (a : ann) : res unit :=
  match a with
  | App HSubclass _ => Err NotImplementedError
  | Class c => match kind c with KOther => Err NotImplementedError | _ => Ok tt end
  | _ => Ok tt
  end.

(** serialized, as AnnotationModel.serialize, with the classes that have no schema. *)
Fixpoint serialized (a : ann) : res (option str) :=
  match a with
  | Builtin b => Ok (Some (builtin_name b))
  | Class name => match kind name with KOther => Err NotImplementedError | _ => Ok (Some name) end
  | AnyType => Ok (Some (chars "typing.Any"))
  | NoneValue => Ok None
  | BareType => Ok (Some (chars "Type"))
  | NoneType | TypeVariable _ => Ok (Some (chars "typing.Type"))
  | App h args =>
      if head_beq h HSubclass then Err NotImplementedError
      else if head_beq h HUnion && union_is_default_value args then
        match args with first :: _ => serialized first | [] => Err IndexError end
      else match args with
      | [] => Ok (Some (head_name h))
      | _ =>
          let* _ := mapM get_schema args in
          let* parts := map_res serialized args in
          let* parts := mapM string_of parts in
          Ok (Some (head_name h ++ "["%char :: join (chars ", ") parts ++ ["]"%char]))
      end
  | Repeat x =>
      let* _ := get_schema x in
      let* s := serialized x in
      let s := match s with Some s => s | None => chars "None" end in
      Ok (Some (chars "Tuple[" ++ s ++ chars ", ...]"))
  | Enum values => Ok (Some (chars "Literal['" ++ join (chars "', '") values ++ chars "']"))
  end.

(** is_file_related, schemas/core.py:509-512, 611-614, 888-891.  An Optional looks at the
    arguments of its own argument, 702, where Ellipsis and the strings of a Literal have no schema. *)
Fixpoint file_related (a : ann) : res bool :=
  match a with
  | Class c => Ok (match kind c with KFile => true | _ => false end)
  | App h args =>
      if head_beq h HUnion && union_is_default_value args then
        match args with
        | App _ l :: _ => let* _ := mapM get_schema l in any_res file_related l
        | Repeat x :: _ => let* _ := get_schema x in Err NotImplementedError
        | Enum (_ :: _) :: _ => Err NotImplementedError
        | _ => Ok false
        end
      else let* _ := mapM get_schema args in any_res file_related args
  | Repeat x => let* _ := get_schema x in file_related x
  | _ => Ok false
  end.

(** [issubclass(a, CoreDessiaObject)]; what is not a class is refused. *)
Definition is_dessia (a : ann) : res bool :=
  match a with
  | Class c => Ok (match kind c with KDessia _ => true | _ => false end)
  | Builtin _ | NoneType => Ok false
  | _ => Err TypeError
  end.
(** [full_classname(a, compute_for="class")], utils/helpers.py:56-62, the name of a type variable
    being a full name here. *)
Definition full_class (a : ann) : res string :=
  match a with
  | Class c | TypeVariable c => Ok (text c)
  | Builtin b => Ok ("builtins." ++ text (builtin_name b))%string
  | NoneType => Ok "builtins.NoneType"
  | _ => Err AttributeError
  end.
(** [a._standalone_in_db] *)
Definition standalone (a : ann) : res bool :=
  match a with
  | Class c => match kind c with KDessia b => Ok b | _ => Err AttributeError end
  | _ => Err AttributeError
  end.

(** [v.to_dict(...)] *)
Definition call_to_dict (v : val) : res val :=
  match v with VObj _ _ => object_to_dict v | _ => Err AttributeError end.

(** object_default, schemas/core.py:1811-1824 *)
Definition object_default (d : val) : res val :=
  match d with
  | VNone => Ok VNone
  | _ => if is_undefined d then Ok VNone else call_to_dict d
  end.

(** MeasureProperty.default_value, schemas/core.py:858-869.  [Measure.__class__.__name__] is the
    name of its metaclass.  A measure is a float; it is given as an object with its value.  A text
    that is a number is not read as one here. *)
Definition measure_dict (v : val) : val :=
  VDict [(KStr "object_class", VStr "dessia_common.measures.Measure"); (KStr "value", v)].
Definition measure_default (d : val) : res val :=
  if is_undefined d then Ok (VDict [(KStr "object_class", VStr "dessia_common.measures.type"); (KStr "value", VNone)])
  else match d with
       | VFloat _ => Ok (measure_dict d)
       | VObj c [(KStr "value", VFloat q)] =>
           match kind (list_ascii_of_string c) with KMeasure _ => Ok (measure_dict (VFloat q)) | _ => Err ValueError end
       | VDict items =>
           let* v := of_option KeyError (lookup (KStr "value") items) in
           match v with
           | VFloat _ => Ok (measure_dict v)
           | VInt z => Ok (measure_dict (VFloat (Fin (inject_Z z))))
           | VBool b => Ok (measure_dict (VFloat (Fin (if b then 1 else 0))))
           | _ => Err TypeError
           end
       | _ => Err ValueError
       end.

(** ClassProperty.default_value, schemas/core.py:1561-1568; [class_] is None for Type. *)
Definition class_default (class_ : option ann) (d : val) : res val :=
  if is_undefined d then
    match class_ with
    | None => Ok (VStr "")
    | Some a => let* b := is_dessia a in
                if b then let* n := full_class a in Ok (VStr n) else Ok (VStr "")
    end
  else match d with VClass n _ => Ok (VStr n) | _ => Err AttributeError end.

(** The argument of Type, AttributeType and so on: [self.class_ is Type] *)
Definition class_argument (args : list ann) : res (option ann) :=
  match args with
  | BareType :: _ => Ok None
  | a :: _ => Ok (Some a)
  | [] => Err IndexError
  end.

(** [full_classname(self.origin, compute_for="class")] *)
Definition origin_class (h : head) : string := ("dessia_common.typings." ++ text (head_name h))%string.

(** AttributeTypeProperty.default_value, schemas/core.py:1451-1461 *)
Definition attribute_type_default (h : head) (args : list ann) (d : val) : res val :=
  if is_undefined d then
    let* class_ := class_argument args in
    let* classname := match class_ with
                      | None => Ok VNone
                      | Some a => let* b := is_dessia a in
                                  if b then let* n := full_class a in Ok (VStr n) else Ok VNone
                      end in
    Ok (VDict [(KStr "object_class", VStr (origin_class h)); (KStr "class_", classname); (KStr "name", VNone)])
  else call_to_dict d.

(** default_value() of the schema of an annotation, schemas/core.py:559-561, 817-821, 858-869,
    962-964, 1030-1032, 1131-1139, 1205-1207, 1258-1260, 1350-1352, 1451-1461, 1561-1568.
    The schema of a class is built for nothing; an InstanceOf something that is not a class is
    left out. *)
Fixpoint default_value (a : ann) (d : val) : res val :=
  match a with
  | NoneType | NoneValue | TypeVariable _ | AnyType | Enum _ => Ok d
  | Builtin _ => Ok (if has_default d then d else VNone)
  | Class c =>
      match kind c with
      | KMeasure _ => measure_default d
      | KFile | KDisplay => Ok d
      | KDessia _ => let* _ := build_class_schema c in object_default d
      | KOther => Err NotImplementedError
      end
  | BareType => class_default None d
  | Repeat x =>
      if has_default d then Ok d
      else let* _ := get_schema x in let* v := default_value x UNDEFINED in Ok (VTuple [v])
  | App h args =>
      match h with
      | HUnion => if union_is_default_value args then Ok d else object_default d
      | HTuple =>
          if has_default d then Ok d
          else let* _ := mapM get_schema args in
               let* l := map_res (fun x => default_value x UNDEFINED) args in Ok (VTuple l)
      | HList | HIterator | HDict => Ok VNone
      | HInstanceOf =>
          let* _ := match args with Class c :: _ => build_class_schema c | _ => Err TypeError end in
          object_default d
      | HType => let* class_ := class_argument args in class_default class_ d
      | HMethodType | HClassMethodType | HAttributeType | HClassAttributeType
      | HCadViewType | HMarkdownType | HPlotDataType => attribute_type_default h args d
      | HSubclass => Err NotImplementedError
      end
  end.

(** FORM_TYPE and form_type, schemas/core.py:547-549, 1184-1188 *)
Definition form_type (a : ann) : res string :=
  match a with
  | Builtin _ => Ok "builtin"
  | Class c => Ok (match kind c with KMeasure _ => "measure" | KFile => "file" | KDessia _ => "custom_instance" | _ => "not_implemented" end)
  | Repeat _ | App HTuple _ => Ok "heterogeneous_sequence"
  | App HList _ | App HIterator _ =>
      let* b := file_related a in Ok (if b then "multiple_files" else "homogeneous_sequence")
  | App HUnion _ | App HInstanceOf _ => Ok "custom_instance"
  | App HDict _ => Ok "dynamic_dict"
  | App HType _ | BareType => Ok "class"
  | App HSubclass _ => Ok "not_implemented"
  | App _ _ => Ok "attribute"
  | Enum _ => Ok "string"
  | AnyType | NoneType | NoneValue | TypeVariable _ => Ok "not_implemented"
  end.

(** Property.to_dict, schemas/core.py:551-557 *)
Definition base_dict (a : ann) (at_ : attribute) : res (list (key * val)) :=
  let* s := serialized a in
  let* form := form_type a in
  let dict_ := [(KStr "pythonTyping", match s with Some s => VStr (text s) | None => VNone end);
                (KStr "type", VNone); (KStr "formType", VStr form)] ++ attribute_dict at_ in
  if has_default (a_default at_) then
    let* v := default_value a (a_default at_) in Ok (dict_ ++ [(KStr "defaultValue", v)])
  else Ok dict_.

(** TYPING_EQUIVALENCES, schemas/core.py:26 *)
Definition equivalence (b : builtin) : string :=
  match b with Int | Float => "number" | Bool => "boolean" | Str => "string" end.

(** [{"name": {"type": "string"}}] *)
Definition named : val := VDict [(KStr "name", VDict [(KStr "type", VStr "string")])].

(** ClassProperty.to_dict, schemas/core.py:1555-1559, GenericTypeProperty.to_dict, 1600-1604 *)
Definition class_items : list (key * val) :=
  [(KStr "type", VStr "object"); (KStr "isClass", VBool true); (KStr "properties", named)].

(** The schema of Type[class_] inside AttributeTypeProperty, schemas/core.py:1417-1421: its default
    value is the class. *)
Definition class_schema_dict (args : list ann) (at_ : attribute) : res val :=
  let* class_ := class_argument args in
  let* d := match class_ with
            | None => Ok UNDEFINED
            | Some a => let* n := full_class a in Ok (VClass n true)
            end in
  let sub := {| a_name := a_name at_ ++ "/class"; a_default := d; a_title := "Class";
                a_editable := a_editable at_; a_desc := "" |} in
  let* dict_ := base_dict (App HType (firstn 1 args)) sub in
  Ok (VDict (update dict_ class_items)).

(** The attributeType of to_dict, schemas/core.py:1434-1437, 1494, 1523 *)
Definition attribute_type (h : head) : string :=
  match h with
  | HClassAttributeType => "class_attributes" | HAttributeType => "attributes"
  | HClassMethodType => "class_methods" | HMethodType => "methods"
  | _ => "view_selectors"
  end.
(** decorator of the views, typings.py:121-140 *)
Definition decorator_items (h : head) : list (key * val) :=
  match h with
  | HCadViewType => [(KStr "decorator", VStr "cad_view")]
  | HMarkdownType => [(KStr "decorator", VStr "markdown_view")]
  | HPlotDataType => [(KStr "decorator", VStr "plot_data_view")]
  | _ => []
  end.

(** to_dict() of the schema of an annotation, schemas/core.py:551-557, 709-711, 810-815, 852-856,
    902-906, 956-960, 1023-1028, 1120-1129, 1190-1203, 1243-1256, 1343-1348, 1431-1449, 1491-1495,
    1520-1524, 1555-1559, 1600-1604, 1613-1617, 1655-1659.  The titles set on the schemas of
    items, 1125 and 1199, are not read by anything. *)
Fixpoint to_dict (a : ann) (at_ : attribute) : res val :=
  let extend items := let* dict_ := base_dict a at_ in Ok (VDict (update dict_ items)) in
  match a with
  | NoneType | NoneValue | TypeVariable _ | BareType => extend class_items
  | AnyType => extend [(KStr "properties", VDict [(KStr ".*", VStr ".*")]); (KStr "type", VStr "object")]
  | Builtin b => extend [(KStr "type", VStr (equivalence b)); (KStr "formType", VStr (equivalence b))]
  | Class c =>
      match kind c with
      | KMeasure u => extend [(KStr "siUnit", VStr u); (KStr "type", VStr "number")]
      | KFile => extend [(KStr "type", VStr "text"); (KStr "isFile", VBool true)]
      | KDessia b => extend [(KStr "type", VStr "object"); (KStr "standaloneInDb", VBool b);
                             (KStr "classes", VList [VStr (text c)])]
      | KDisplay => extend []
      | KOther => Err NotImplementedError
      end
  | Enum values => extend [(KStr "allowedValues", VTuple (map (fun s => VStr (text s)) values)); (KStr "type", VStr "string")]
  | Repeat x =>
      let* dict_ := base_dict a at_ in
      let* item := to_dict x (sub_attribute at_ 0) in
      Ok (VDict (update dict_ [(KStr "type", VStr "array"); (KStr "additionalItems", VBool true); (KStr "items", VList [item])]))
  | App h args =>
      match h with
      | HUnion =>
          if union_is_default_value args then
            match args with
            | first :: _ => let* _ := get_schema first in to_dict first at_
            | [] => Err IndexError
            end
          else
            let* dict_ := base_dict a at_ in
            let* classes := mapM full_class args in
            let* standalones := mapM standalone args in
            Ok (VDict (update dict_
              [(KStr "type", VStr "object"); (KStr "classes", VList (map VStr classes));
               (KStr "standaloneInDb", if forallb (fun b => b) standalones then VBool true
                                       else if negb (existsb (fun b => b) standalones) then VBool false else VNone)]))
      | HTuple =>
          let* dict_ := base_dict a at_ in
          let* items := map_indexed (fun i x => to_dict x (sub_attribute at_ i)) 0 args in
          Ok (VDict (update dict_ [(KStr "type", VStr "array"); (KStr "additionalItems", VBool false); (KStr "items", VList items)]))
      | HList | HIterator =>
          let* dict_ := base_dict a at_ in
          match args with
          | first :: _ =>
              let* items := to_dict first (sub_attribute at_ 0) in
              Ok (VDict (update dict_ [(KStr "type", VStr "array"); (KStr "items", items)]))
          | [] => Err IndexError
          end
      | HDict =>
          match args with
          | [key_type; value_type] =>
              match key_type with
              | Builtin Str =>
                  match value_type with
                  | Builtin _ =>
                      let* dict_ := base_dict a at_ in
                      let* values := to_dict value_type (sub_attribute at_ 1) in
                      Ok (VDict (update dict_ [(KStr "type", VStr "object"); (KStr "patternProperties", VDict [(KStr ".*", values)])]))
                  | _ => Err ValueError
                  end
              | _ => Err NotImplementedError
              end
          | _ => Err ValueError
          end
      | HInstanceOf =>
          let* dict_ := base_dict a at_ in
          match args with
          | first :: _ =>
              let* c := full_class first in
              let* b := standalone first in
              Ok (VDict (update dict_ [(KStr "type", VStr "object"); (KStr "instanceOf", VStr c);
                                       (KStr "classes", VList [VStr c]); (KStr "standaloneInDb", VBool b)]))
          | [] => Err IndexError
          end
      | HType => extend class_items
      | HSubclass => Err NotImplementedError
      | _ =>
          let* dict_ := base_dict a at_ in
          let* class_ := class_schema_dict args at_ in
          Ok (VDict (update (update dict_
            [(KStr "type", VStr "object"); (KStr "object_class", VStr (origin_class h)); (KStr "isAttribute", VBool true);
             (KStr "attributeType", VStr (attribute_type h));
             (KStr "properties", VDict [(KStr "class_", class_); (KStr "name", VDict [(KStr "type", VStr "string")])])])
            (decorator_items h)))
      end
  end.

(** * Steps and schemas *)

(** An attribute of a step, or a group of attributes with their annotations (SchemaAttributeGroup,
    schemas/core.py:181-196). *)
Inductive entry :=
| Single (at_ : attribute)
| Group (at_ : attribute) (annotations : list (string * ann)) (members : list attribute).
Definition singles (l : list entry) : list attribute :=
  flat_map (fun e => match e with Single at_ => [at_] | Group _ _ _ => [] end) l.

(** SchemaAttributeCollection.__init__, schemas/core.py:132-143: the annotation of each attribute,
    by name. *)
Definition property_schemas (annotations : list (string * ann)) (attributes : list attribute) : res (list (string * (ann * attribute))) :=
  mapM (fun at_ => let* a := of_option ValueError (SignatureModel.get_name (a_name at_) annotations) in
                   let* _ := get_schema a in Ok (a_name at_, (a, at_))) attributes.

(** [property_schemas[name] = schema] keeps the last of the attributes with one name. *)
Definition last_schema (n : string) (l : list (string * (ann * attribute))) : option (ann * attribute) :=
  SignatureModel.get_name n (rev l).

(** chunk, schemas/core.py:158-165, for a single attribute *)
Definition chunk (schemas : list (string * (ann * attribute))) (at_ : attribute) : res val :=
  match last_schema (a_name at_) schemas with
  | Some (a, at') => to_dict a at'
  | None => Err ValueError
  end.

(** SchemaAttributeGroup: built, then to_dict, 191-196.  chunks of groups inside groups are left out. *)
Definition group_dict (at_ : attribute) (annotations : list (string * ann)) (members : list attribute) : res val :=
  let* schemas := property_schemas annotations members in
  let* chunks := mapM (chunk schemas) members in
  Ok (VDict (update (update (attribute_dict at_) [(KStr "properties", VList chunks)]) [(KStr "formType", VStr "group")])).

(** SchemaStep, schemas/core.py:199-227.  [display] is the dictionary of its display setting, the
    identifiers are given. *)
Record step := { st_annotations : list (string * ann); st_entries : list entry; st_display : val; st_label : string;
                 st_documentation : string; st_variable : option Z; st_group_id : string; st_id : string }.
Definition step_schemas (s : step) : res (list (string * (ann * attribute))) :=
  property_schemas (st_annotations s) (singles (st_entries s)).
Definition step_dict (s : step) : res val :=
  let* schemas := step_schemas s in
  let* chunks := mapM (fun e => match e with
                                | Single at_ => chunk schemas at_
                                | Group at_ annotations members => group_dict at_ annotations members
                                end) (st_entries s) in
  Ok (VDict [(KStr "properties", VList chunks); (KStr "displaySetting", st_display s);
             (KStr "documentation", VStr (st_documentation s)); (KStr "label", VStr (st_label s));
             (KStr "displayVariable", match st_variable s with Some z => VInt z | None => VNone end);
             (KStr "group_id", VStr (st_group_id s)); (KStr "id", VStr (st_id s))]).

(** Schema, schemas/core.py:243-270; [kwargs] come last.  Spare properties have their annotation. *)
Record schema := { steps : list step; spare_properties : list (ann * attribute); documentation : string }.
Definition schema_dict (s : schema) (kwargs : list (key * val)) : res val :=
  let* step_dicts := mapM step_dict (steps s) in
  let* spare := mapM (fun p => to_dict (fst p) (snd p)) (spare_properties s) in
  Ok (VDict (update [(KStr "definitions", VDict []); (KStr "$schema", VStr "http://json-schema.org/draft-07/schema#");
                     (KStr "type", VStr "object")]
       ([(KStr "steps", VList step_dicts); (KStr "description", VStr (documentation s)); (KStr "spareProperties", VList spare)] ++ kwargs))).

(** The schemas of all steps, last ones first by name: {a: s for step in steps for a, s in ...} *)
Fixpoint set_named {A} (k : string) (v : A) (d : list (string * A)) : list (string * A) :=
  match d with
  | [] => [(k, v)]
  | (j, x) :: d' => if String.eqb k j then (j, v) :: d' else (j, x) :: set_named k v d'
  end.
(** Schema.default_dict, schemas/core.py:272-279 *)
Definition default_dict (s : schema) : res (list (string * val)) :=
  let* all := mapM step_schemas (steps s) in
  foldM (fun d nas => let* v := default_value (fst (snd nas)) (a_default (snd (snd nas))) in
                      Ok (set_named (fst nas) v d)) (concat all) [].
(** Schema.default_value, schemas/core.py:281-289 *)
Definition schema_default_value (s : schema) : res (list (string * val)) :=
  let* all := mapM step_schemas (steps s) in
  foldM (fun d nas => if has_default (a_default (snd (snd nas))) then
                        let* v := default_value (fst (snd nas)) (a_default (snd (snd nas))) in
                        Ok (set_named (fst nas) v d)
                      else Ok d) (concat all) [].

(** MemberSchema.__init__, schemas/core.py:350-366; building the step builds the schemas of its
    attributes, which fails first. *)
Definition member_schema (spec : SignatureModel.argspec val) (annotations : list (string * ann)) (docstring : option str)
    (group_id id : string) : res schema :=
  let attribute_names := filter (fun a => negb (SignatureModel.reserved SignatureModel.RESERVED_ARGNAMES a)) (SignatureModel.args spec) in
  let '(description, descriptions) :=
    member_docstring (fun n => option_map (fun a => let* _ := get_schema a in let* _ := serialized a in Ok tt)
                                          (SignatureModel.get_name (text n) annotations)) docstring in
  let* split := SignatureModel.split_default_args val spec false in
  let attributes := map (fun n =>
    {| a_name := n; a_default := match SignatureModel.get_name n (snd split) with Some v => v | None => UNDEFINED end;
       a_title := ""; a_editable := true;
       a_desc := text (attribute_description descriptions (list_ascii_of_string n)) |}) attribute_names in
  let s := {| st_annotations := annotations; st_entries := map Single attributes; st_display := VNone; st_label := "";
              st_documentation := ""; st_variable := None; st_group_id := group_id; st_id := id |} in
  let* _ := step_schemas s in
  Ok {| steps := [s]; spare_properties := []; documentation := text description |}.

(** ClassSchema.to_dict, schemas/core.py:402-408, of a class given by its name. *)
Definition class_schema_to_dict (s : schema) (c : str) : res val :=
  let* d := schema_dict s [] in
  let* b := standalone (Class c) in
  match d with
  | VDict items => Ok (VDict (update items [(KStr "classes", VList [VStr (text c)]); (KStr "standaloneInDb", VBool b)]))
  | _ => Ok d
  end.
(** ClassSchema.default_dict, schemas/core.py:410-414 *)
Definition class_default_dict (s : schema) (c : str) : res (list (string * val)) :=
  let* d := default_dict s in Ok (set_named "object_class" (VStr (text c)) d).
End Schema.

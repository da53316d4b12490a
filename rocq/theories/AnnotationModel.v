(** Model of the serialization of annotations of /repo/dessia_common/schemas/core.py:
    serialize_annotation and deserialize_annotation. *)
From Coq Require Import Ascii String List Bool Arith.
From Verif Require Import Base.
Import ListNotations.
Open Scope char_scope.
Open Scope list_scope.
Open Scope nat_scope.

(** Strings are lists of characters *)
Definition str := list ascii.
Definition chars (s : string) : str := list_ascii_of_string s.
Fixpoint str_eqb (s t : str) : bool :=
  match s, t with
  | [], [] => true
  | c :: s, d :: t => Ascii.eqb c d && str_eqb s t
  | _, _ => false
  end.
Definition has (c : ascii) (s : str) : bool := existsb (Ascii.eqb c) s.

(** * Annotations *)

Inductive builtin := Int | Float | Bool | Str.

(** Generic aliases, by origin *)
Inductive head :=
| HTuple | HList | HIterator | HUnion | HDict | HInstanceOf | HSubclass | HType
| HMethodType | HClassMethodType | HAttributeType | HClassAttributeType
| HCadViewType | HMarkdownType | HPlotDataType.

(** Annotations as Python objects.  A class is given by its full name (module.name).  [NoneValue] is
    None, [NoneType] its type, what typing makes of None in the arguments of a generic alias. *)
Inductive ann :=
| Builtin (b : builtin)
| Class (name : str)
| AnyType | NoneType | NoneValue | BareType
| TypeVariable (name : str)
| App (h : head) (args : list ann)
| Repeat (a : ann)              (** Tuple[a, ...] *)
| Enum (values : list str).     (** Literal of strings *)

Scheme Equality for head.
Scheme Equality for builtin.

Section AllTwo.
Variable A : Type.
Variable f : A -> A -> bool.
Fixpoint all_two (l m : list A) : bool :=
  match l, m with
  | [], [] => true
  | x :: l, y :: m => f x y && all_two l m
  | _, _ => false
  end.
End AllTwo.
Arguments all_two {A}.

Section MapRes.
Variable A B : Type.
Variable f : A -> res B.
(** mapM, in the form recursive definitions need *)
Fixpoint map_res (l : list A) : res (list B) :=
  match l with
  | [] => Ok []
  | x :: l => let* y := f x in let* ys := map_res l in Ok (y :: ys)
  end.
End MapRes.
Arguments map_res {A B}.

(** Python's [==] of annotations, order of Union arguments apart *)
Fixpoint ann_eqb (a b : ann) : bool :=
  match a, b with
  | Builtin x, Builtin y => builtin_beq x y
  | Class x, Class y | TypeVariable x, TypeVariable y => str_eqb x y
  | AnyType, AnyType | NoneType, NoneType | NoneValue, NoneValue | BareType, BareType => true
  | App h l, App k m => head_beq h k && all_two ann_eqb l m
  | Repeat x, Repeat y => ann_eqb x y
  | Enum l, Enum m => all_two str_eqb l m
  | _, _ => false
  end.

(** * Serialization *)

Definition builtin_name (b : builtin) : str :=
  chars match b with Int => "int" | Float => "float" | Bool => "bool" | Str => "str" end.

(** [origin.__name__], capitalized when needed, schemas/core.py:618-621, 996 *)
Definition head_name (h : head) : str :=
  chars match h with
  | HTuple => "Tuple" | HList => "List" | HIterator => "Iterator" | HUnion => "Union" | HDict => "Dict"
  | HInstanceOf => "InstanceOf" | HSubclass => "Subclass" | HType => "Type"
  | HMethodType => "MethodType" | HClassMethodType => "ClassMethodType"
  | HAttributeType => "AttributeType" | HClassAttributeType => "ClassAttributeType"
  | HCadViewType => "CadViewType" | HMarkdownType => "MarkdownType" | HPlotDataType => "PlotDataType"
  end.

(** [sep.join(parts)] *)
Fixpoint join (sep : str) (parts : list str) : str :=
  match parts with
  | [] => []
  | [p] => p
  | p :: parts => p ++ sep ++ join sep parts
  end.

(** None in a join is a TypeError *)
Definition string_of (s : option str) : res str := of_option TypeError s.

(** [union_is_default_value], schemas/core.py:1844-1852 *)
Definition union_is_default_value (args : list ann) : bool :=
  (List.length args =? 2) && existsb (fun a => match a with NoneType => true | _ => false end) args.

(** [get_schema] of an annotation fails when its origin has no schema class, schemas/core.py:1706-1737,
    1783-1793 *)
Definition get_schema (a : ann) : res unit :=
  match a with App HSubclass _ => Err NotImplementedError | _ => Ok tt end.

(** [get_schema(annotation).serialized], schemas/core.py:515-520, 616-624, 714-716, 801-803, 837-839,
    893-895, 942-944, 994-996, 1097-1101, 1594-1598, 1629-1632.  Schemas of arguments are all built
    before they are serialized. *)
Fixpoint serialize (a : ann) : res (option str) :=
  match a with
  | Builtin b => Ok (Some (builtin_name b))
  | Class name => Ok (Some name)
  | AnyType => Ok (Some (chars "typing.Any"))
  | NoneValue => Ok None
  | BareType => Ok (Some (chars "Type"))
  | NoneType | TypeVariable _ => Ok (Some (chars "typing.Type"))
  | App h args =>
      if head_beq h HSubclass then Err NotImplementedError
      else if head_beq h HUnion && union_is_default_value args then
        match args with first :: _ => serialize first | [] => Err IndexError end
      else match args with
      | [] => Ok (Some (head_name h))
      | _ =>
          let* _ := mapM get_schema args in
          let* parts := map_res serialize args in
          let* parts := mapM string_of parts in
          Ok (Some (head_name h ++ "[" :: join (chars ", ") parts ++ ["]"]))
      end
  | Repeat x =>
      let* _ := get_schema x in
      let* s := serialize x in
      let s := match s with Some s => s | None => chars "None" end in
      Ok (Some (chars "Tuple[" ++ s ++ chars ", ...]"))
  | Enum values => Ok (Some (chars "Literal['" ++ join (chars "', '") values ++ chars "']"))
  end.

(** * Deserialization *)

Definition is_bracket (c : ascii) : bool := Ascii.eqb c "[" || Ascii.eqb c "]".

Fixpoint take_while (f : ascii -> bool) (s : str) : str :=
  match s with c :: s' => if f c then c :: take_while f s' else [] | [] => [] end.
Fixpoint drop_while (f : ascii -> bool) (s : str) : str :=
  match s with c :: s' => if f c then drop_while f s' else s | [] => [] end.

(** What comes before the last closing bracket *)
Fixpoint before_last_close (s : str) : option str :=
  match s with
  | [] => None
  | c :: s' => match before_last_close s' with
               | Some g => Some (c :: g)
               | None => if Ascii.eqb c "]" then Some [] else None
               end
  end.

Definition newline : ascii := "010".

(** [re.match(SERIALIZED_REGEXP, s).groups()], schemas/core.py:585: characters other than brackets,
    an opening bracket, then as much as possible of the same line before a closing bracket *)
Definition regexp (s : str) : option (str * str) :=
  let name := take_while (fun c => negb (is_bracket c)) s in
  match drop_while (fun c => negb (is_bracket c)) s with
  | c :: rest =>
      if Ascii.eqb c "[" then
        match before_last_close (take_while (fun c => negb (Ascii.eqb c newline)) rest) with
        | Some args => Some (name, args)
        | None => None
        end
      else None
  | [] => None
  end.

(** [s.replace(c, "")] *)
Definition remove_char (c : ascii) (s : str) : str := filter (fun d => negb (Ascii.eqb d c)) s.

(** [_raw_args_from_serialized], schemas/core.py:650-655 *)
Definition raw_args (s : str) : res str :=
  if has "[" s && has "]" s then
    let* groups := of_option AttributeError (regexp s) in
    Ok (remove_char " " (snd groups))
  else Ok [].

(** the loop of extract_args *)
Fixpoint extract_loop (s : str) (opened closed : nat) (current : str) (arguments : list str) : list str :=
  match s with
  | [] => match current with [] => arguments | _ => arguments ++ [current] end
  | c :: s =>
      let opened := if Ascii.eqb c "[" then S opened else opened in
      let closed := if Ascii.eqb c "]" then S closed else closed in
      if (closed =? opened) && Ascii.eqb c ","
      then extract_loop s opened closed [] (arguments ++ [current])
      else extract_loop s opened closed (current ++ [c]) arguments
  end.
(** [extract_args], schemas/core.py:1855-1884 *)
Definition extract_args (s : str) : list str := extract_loop (remove_char " " s) 0 0 [] [].

(** [p in s] and [s.split(p)[0]] at once: what comes before the first occurrence of p *)
Fixpoint starts_with (p s : str) : bool :=
  match p, s with
  | [], _ => true
  | c :: p, d :: s => Ascii.eqb c d && starts_with p s
  | _ :: _, [] => false
  end.
Fixpoint before (p s : str) : option str :=
  if starts_with p s then Some []
  else match s with [] => None | c :: s => option_map (cons c) (before p s) end.

(** [s.split(",")] *)
Fixpoint split_on (c : ascii) (s : str) : list str :=
  match s with
  | [] => [[]]
  | d :: s => if Ascii.eqb d c then [] :: split_on c s
              else match split_on c s with w :: ws => (d :: w) :: ws | [] => [[d]] end
  end.

(** [Union[args]]: nested unions are flattened, equal arguments removed, a single one returned *)
Definition flatten (l : list ann) : list ann :=
  flat_map (fun a => match a with App HUnion m => m | _ => [a] end) l.
Definition make_union (l : list ann) : res ann :=
  match dedup ann_eqb [] (flatten l) with
  | [] => Err TypeError
  | [a] => Ok a
  | m => Ok (App HUnion m)
  end.

(** [Origin[args]] for the other ones: the number of arguments is checked *)
Definition make (h : head) (l : list ann) : res ann :=
  match h, l with
  | HUnion, _ => make_union l
  | HTuple, _ => Ok (App HTuple l)
  | HDict, [_; _] => Ok (App h l)
  | HDict, _ => Err TypeError
  | _, [_] => Ok (App h l)
  | _, _ => Err TypeError
  end.

(** Schema classes *)
Inductive schema_class := CBuiltin | CTuple | CList | CUnion | CDict | CInstanceOf | CSubclass | CMethod | CType | CAttribute | CEnum.

(** [SERIALIZED_TO_SCHEMA_CLASS], schemas/core.py:1739-1745 *)
Definition SERIALIZED_TO_SCHEMA_CLASS : list (str * schema_class) :=
  [(chars "int", CBuiltin); (chars "float", CBuiltin); (chars "bool", CBuiltin); (chars "str", CBuiltin);
   (chars "Tuple", CTuple); (chars "List", CList); (chars "Iterator", CList);
   (chars "Union", CUnion); (chars "Dict", CDict); (chars "InstanceOf", CInstanceOf); (chars "Subclass", CSubclass);
   (chars "MethodType", CMethod); (chars "ClassMethodType", CMethod); (chars "Type", CType);
   (chars "AttributeType", CAttribute); (chars "ClassAttributeType", CAttribute); (chars "Literal", CEnum)].
Fixpoint lookup {B} (s : str) (l : list (str * B)) : option B :=
  match l with [] => None | (k, c) :: l => if str_eqb s k then Some c else lookup s l end.

(** [TYPES_FROM_STRING], schemas/core.py:27 *)
Definition types_from_string (s : str) : res ann :=
  of_option KeyError (lookup s
    [(chars "unicode", Builtin Str); (chars "str", Builtin Str); (chars "float", Builtin Float);
     (chars "int", Builtin Int); (chars "bool", Builtin Bool)]).

Section Deserialize.
(** Full names Python can import as a class *)
Variable importable : str -> bool.

(** [get_python_class_from_class_name], utils/helpers.py:65-80, without its cache.  literal_eval of a
    name is a ValueError, but for None, written as its type, which it is made as an argument; other
    literals are not annotations. *)
Definition class_from_name (s : str) : res ann :=
  if has "." s then
    if str_eqb s (chars "typing.Any") then Ok AnyType
    else if str_eqb s (chars "typing.Type") then Ok BareType
    else if importable s then Ok (Class s) else Err AttributeError
  else if str_eqb s (chars "None") then Ok NoneType else Err ValueError.

Section Step.
Variable deserialize : str -> res ann.

(** [_args_from_serialized], schemas/core.py:658-662 *)
Definition args_from_serialized (s : str) : res (list ann) :=
  let* raw := raw_args s in mapM deserialize (extract_args raw).

(** [annotation_from_serialized] of each class, schemas/core.py:538, 806, 1014, 1111-1118, 1181, 1239,
    1324, 1380, 1424, 1484, 1548, 1645 *)
Definition annotation_from_serialized (c : schema_class) (s : str) : res ann :=
  let generic h := let* args := args_from_serialized s in make h args in
  match c with
  | CBuiltin => types_from_string s
  | CTuple =>
      let* raw := raw_args s in
      match before (chars ",...") raw with
      | Some arg => let* subtype := deserialize arg in Ok (Repeat subtype)
      | None => generic HTuple
      end
  | CList => generic HList
  | CUnion => generic HUnion
  | CDict => generic HDict
  | CInstanceOf => generic HInstanceOf
  | CSubclass => generic HSubclass
  | CMethod =>
      let* groups := of_option AttributeError (regexp s) in
      generic (if str_eqb (fst groups) (chars "MethodType") then HMethodType else HClassMethodType)
  | CAttribute =>
      let* groups := of_option AttributeError (regexp s) in
      generic (if str_eqb (fst groups) (chars "AttributeType") then HAttributeType else HClassAttributeType)
  | CType =>
      let* args := args_from_serialized s in
      match args with [] => Ok BareType | _ => make HType args end
  | CEnum =>
      let* raw := raw_args s in
      Ok (Enum (dedup str_eqb [] (split_on "," (remove_char "'" raw))))
  end.
End Step.

(** [deserialize_annotation] of a string, schemas/core.py:1762-1770, 638-642 *)
Fixpoint deserialize_str (fuel : nat) (s : str) : res ann :=
  match fuel with
  | 0 => Err OutOfFuel
  | S fuel =>
      if has "[" s then
        let* groups := of_option AttributeError (regexp s) in
        let* c := of_option KeyError (lookup (fst groups) SERIALIZED_TO_SCHEMA_CLASS) in
        annotation_from_serialized (deserialize_str fuel) c s
      else
        match lookup s SERIALIZED_TO_SCHEMA_CLASS with
        | Some c => annotation_from_serialized (deserialize_str fuel) c s
        | None => class_from_name s
        end
  end.

(** [deserialize_annotation] *)
Definition deserialize (s : option str) : res ann :=
  match s with
  | None => Ok NoneValue
  | Some s => deserialize_str (S (List.length s)) s
  end.
End Deserialize.

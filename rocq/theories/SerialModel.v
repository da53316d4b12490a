(** Model of serialisation without pointers and of deserialisation
    (dessia_common/serialization.py:29-124 and 259-351, core.py:104-108). *)
From Coq Require Import ZArith Bool String Ascii List.
From Verif Require Import Base PyValue.
Import ListNotations.
Open Scope string_scope.
Open Scope list_scope.

Section Serial.
(** _non_serializable_attributes, by full class name *)
Variable non_serializable : string -> list string.
(** [str(key)] *)
Variable str_key : key -> string.
(** is_jsonable on numbers and strings (orjson refuses integers over 64 bits) *)
Variable jsonable : val -> bool.
(** serialize_annotation on a class, by full class name *)
Variable annotation_of_class : string -> string.
(** is_classname_transform: None is False, exceptions it does not catch are errors *)
Variable class_named : string -> res (option val).
(** get_python_class_from_class_name on the value under 'object_class': the full name of
    a DessiaObject subclass with the generic dict_to_object *)
Variable find_class : val -> res string.
(** [argspec.args + argspec.kwonlyargs], whether an argument is annotated Tuple[...], and
    [class_( **kwargs)] *)
Variable arguments : string -> list string.
Variable tuple_annotated : string -> string -> bool.
Variable construct : string -> list (key * val) -> res val.

Definition is_private (k : key) : bool :=
  match k with KStr (String c _) => Ascii.eqb c "_" | _ => false end.
Definition key_within (k : key) (l : list string) : bool := memb key_eqb k (map KStr l).

(** [dict_.update(items)] *)
Definition update {A} (d items : list (key * A)) : list (key * A) :=
  fold_left (fun d kv => set_key (fst kv) (snd kv) d) items d.

(** DessiaObject.base_dict, core.py:104-108 *)
Definition base_dict (c : string) (d : list (key * val)) : res (list (key * val)) :=
  let* name := of_option AttributeError (lookup (KStr "name") d) in
  Ok [(KStr "object_class", VStr c); (KStr "name", name)].

Section Items.
Variable f : val -> res val.
(** [{k: f(v) for k, v in dict_.items()}] *)
Fixpoint map_items (keep : key -> bool) (d : list (key * val)) : res (list (key * val)) :=
  match d with
  | [] => Ok []
  | (k, x) :: d' => if keep k then let* y := f x in let* r := map_items keep d' in Ok ((k, y) :: r)
                    else map_items keep d'
  end.
Fixpoint map_seq (l : list val) : res (list val) :=
  match l with
  | [] => Ok []
  | x :: l' => let* y := f x in let* r := map_seq l' in Ok (y :: r)
  end.
End Items.

(** serialize, serialization.py:91-124, with to_dict(use_pointers=False), 50-66.  Numpy
    scalars, files and objects that are not DessiaObjects are left out. *)
Fixpoint serialize (v : val) : res val :=
  match v with
  | VObj c d =>
    let* base := base_dict c d in
    let* items := map_items serialize (fun k => negb (key_within k (non_serializable c)) && negb (is_private k)) d in
    Ok (VDict (update base items))
  | VDict d => let* items := map_items serialize (fun _ => true) d in Ok (VDict items)
  | VList l | VTuple l => let* r := map_seq serialize l in Ok (VList r)
  | VClass n _ => Ok (VStr (annotation_of_class n))
  | _ => if jsonable v then Ok v else Err SerializationError
  end.

(** ** Deserialisation *)
Definition slash (path : string) (k : string) : string := (path ++ "/" ++ k)%string.
(** [pointers_memo[path]] *)
Fixpoint assoc {A} (p : string) (m : list (string * A)) : option A :=
  match m with [] => None | (q, x) :: m' => if String.eqb p q then Some x else assoc p m' end.

Section Sub.
Variable f : string -> bool -> val -> res val.
(** subobjects, serialization.py:329-345: the keys kept, with whether they are annotated as tuples *)
Fixpoint subobjects (path : string) (keep annotated : key -> bool) (d : list (key * val)) : res (list (key * val)) :=
  match d with
  | [] => Ok []
  | (k, x) :: d' => if keep k then let* y := f (slash path (str_key k)) (annotated k) x in
                                   let* r := subobjects path keep annotated d' in Ok ((k, y) :: r)
                    else subobjects path keep annotated d'
  end.
Variable str_nat : nat -> string.
Fixpoint elements (path : string) (i : nat) (l : list val) : res (list val) :=
  match l with
  | [] => Ok []
  | x :: l' => let* y := f (slash path (str_nat i)) false x in let* r := elements path (S i) l' in Ok (y :: r)
  end.
End Sub.
Variable str_nat : nat -> string.

(** deserialize, deserialize_sequence and dict_to_object once the pointers are known,
    serialization.py:259-351.  [tuple_ann] says whether the annotation has tuple as
    origin; the arguments of an annotation, given to the elements, are not an annotation,
    so elements have none. *)
Fixpoint deserialize (memo : list (string * val)) (path : string) (tuple_ann : bool) (v : val) {struct v} : res val :=
  match assoc path memo with
  | Some w => Ok w
  | None =>
    match v with
    | VDict d =>
      match lookup (KStr "$ref") d with
      | Some (VStr p) => of_option RuntimeError (assoc p memo)
      | Some _ => Err RuntimeError
      | None =>
        match lookup (KStr "object_class") d with
        | Some cn =>
          let* c := find_class cn in
          let* subs := subobjects (deserialize memo) path
                         (fun k => key_within k (arguments c))
                         (fun k => match k with KStr s => tuple_annotated c s | _ => false end) d in
          construct c subs
        | None => let* subs := subobjects (deserialize memo) path (fun _ => true) (fun _ => false) d in Ok (VDict subs)
        end
      end
    | VList l | VTuple l =>
      let* r := elements (deserialize memo) str_nat path O l in
      Ok (if tuple_ann then VTuple r else VList r)
    | VStr s => let* t := class_named s in Ok (match t with Some c => c | None => v end)
    | _ => Ok v
    end
  end.
End Serial.

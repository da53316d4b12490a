(** Model of type matching (/repo/dessia_common/utils/types.py) and of the deserialization
    of method arguments (/repo/dessia_common/serialization.py). *)
From Coq Require Import ZArith QArith String Ascii List Bool Arith.
From Verif Require Import Base PyValue.
Import ListNotations.
Open Scope string_scope.
Open Scope list_scope.
Open Scope nat_scope.

(** Annotations.  A class is given by its name (NoneType included), the arguments of a tuple
    may be an ellipsis.  [TGeneric]: the other parametrised types (InstanceOf, Type,
    MethodType, Literal...), by name.  Typings without arguments (a bare List) are left
    out. *)
Inductive ty :=
| TAny
| TClass (c : string)
| TEllipsis
| TList (t : ty)
| TDict (k v : ty)
| TTuple (args : list ty)
| TUnion (args : list ty)
| TGeneric (name : string) (args : list ty).

Section Lists.
Context {A B : Type}.
Variable f : A -> A -> bool.
Fixpoint all2 (l m : list A) : bool :=
  match l, m with
  | [], [] => true
  | x :: l', y :: m' => f x y && all2 l' m'
  | _, _ => false
  end.

(** [[f(x, y) for x, y in zip(l, m)]] *)
Variable g : A -> B -> res B.
Fixpoint zip_with (l : list A) (m : list B) : res (list B) :=
  match l, m with
  | x :: l', y :: m' => let* r := g x y in let* rs := zip_with l' m' in Ok (r :: rs)
  | _, _ => Ok []
  end.
End Lists.

(** [==] on annotations: unions are compared as sets *)
Fixpoint teq (a b : ty) {struct a} : bool :=
  match a, b with
  | TAny, TAny => true
  | TEllipsis, TEllipsis => true
  | TClass c, TClass d => String.eqb c d
  | TList x, TList y => teq x y
  | TDict k x, TDict j y => teq k j && teq x y
  | TTuple l, TTuple m => all2 teq l m
  | TGeneric n l, TGeneric p m => String.eqb n p && all2 teq l m
  | TUnion l, TUnion m =>
      forallb (fun x => existsb (fun y => teq x y) m) l && forallb (fun y => existsb (fun x => teq x y) l) m
  | _, _ => false
  end.

(** [is_typing], schemas/core.py:1773-1778 *)
Definition is_typing (t : ty) : bool :=
  match t with TAny | TClass _ | TEllipsis => false | _ => true end.

Definition NoneType := TClass "NoneType".

(** [union_is_default_value], schemas/core.py:1844-1852, for unions *)
Definition union_is_default_value (args : list ty) : bool :=
  (List.length args =? 2) && existsb (fun a => teq a NoneType) args.

(** [heal_type], utils/types.py:361-378: the cleaned type, its origin and arguments being
    part of it *)
Definition heal_type (t : ty) : ty :=
  match t with
  | TUnion args => if union_is_default_value args then nth 0 args t else t
  | _ => t
  end.

(** [particular_typematches], utils/types.py:381-386 *)
Definition particular_typematches (t m : ty) : bool :=
  match t, m with
  | TClass a, TClass b => String.eqb a "int" && String.eqb b "float"
  | _, _ => false
  end.

Definition is_any (t : ty) : bool := match t with TAny => true | _ => false end.

(** [all(f(a, b) for a, b in zip(l, m))] *)
Fixpoint all_zip {A} (f : A -> A -> res bool) (l m : list A) : res bool :=
  match l, m with
  | x :: l', y :: m' => let* b := f x y in if b then all_zip f l' m' else Ok false
  | _, _ => Ok true
  end.

Section Match.
(** [issubclass(class, class)] *)
Variable subclass : string -> string -> bool.

(** [issubclass] raises when an argument is not a class.  Up to python 3.10, Any is not. *)
Definition issubclass (t m : ty) : res bool :=
  match t, m with TClass a, TClass b => Ok (subclass a b) | _, _ => Err TypeError end.

(** [complex_first_type_match], utils/types.py:324-358, given [typematch] *)
Definition complex_first_type_match (typematch : ty -> ty -> res bool) (t m : ty) : res bool :=
  if negb (is_typing m) then Ok false
  else
    match heal_type t, heal_type m with
    | TList a, TList b => typematch a b
    | TTuple l, TTuple k => all_zip typematch l k
    | TDict k x, TDict j y => let* b := typematch k j in if b then typematch x y else Ok false
    | TUnion l, TUnion k => Ok (forallb (fun x => existsb (fun y => teq x y) k) l)
    | TGeneric n _, TGeneric p _ => if String.eqb n p then Err NotImplementedError else Ok false
    | TAny, TAny | TAny, TClass _ | TAny, TEllipsis | TClass _, TAny | TClass _, TClass _ | TClass _, TEllipsis
    | TEllipsis, TAny | TEllipsis, TClass _ | TEllipsis, TEllipsis => Err NotImplementedError
    | _, _ => Ok false                        (* origins differ *)
    end.

(** [typematch], utils/types.py:296-321.  Recursion is on fuel. *)
Fixpoint typematch_ (n : nat) (t m : ty) : res bool :=
  match n with
  | 0 => Err OutOfFuel
  | S n' =>
    if teq t m || is_any m || particular_typematches t m then Ok true
    else if is_typing t then complex_first_type_match (typematch_ n') t m
    else
      let* sub := if negb (is_typing m) then issubclass t m else Ok false in
      if sub then Ok true
      else
        match heal_type m with
        | TUnion args => let* matches := mapM (typematch_ n' t) args in Ok (existsb (fun b => b) matches)
        | _ => Ok false
        end
  end.

Fixpoint size (t : ty) : nat :=
  match t with
  | TAny | TClass _ | TEllipsis => 1
  | TList a => S (size a)
  | TDict a b => S (size a + size b)
  | TTuple l | TUnion l | TGeneric _ l => S (fold_right (fun x n => size x + n) 0 l)
  end.

Definition typematch (t m : ty) : res bool := typematch_ (size t + size m) t m.
End Match.

(** ** Arguments *)

(** The classes the deserialization tells apart, besides int, float, bool and str *)
Inductive class_kind := Serializable | Measure | File | TextIO | Other.

Section Arguments.
Variable kind : string -> class_kind.
(** [class.dict_to_object(argument)] *)
Variable dict_to_object : string -> val -> res val.
(** [len(class.mro())] *)
Variable mro : string -> nat.

Definition builtin (c : string) : bool :=
  String.eqb c "int" || String.eqb c "float" || String.eqb c "bool" || String.eqb c "str".

(** [isinstance(argument, type_)] for the built-in types: booleans are integers *)
Definition is_instance (v : val) (c : string) : bool :=
  match v with
  | VBool _ => String.eqb c "bool" || String.eqb c "int"
  | VInt _ => String.eqb c "int"
  | VFloat _ => String.eqb c "float"
  | VStr _ => String.eqb c "str"
  | _ => false
  end.

(** [float(argument)] for an integer or a boolean; integers beyond the range of floats are
    not modelled *)
Definition to_float (v : val) : option val :=
  match v with
  | VInt z => Some (VFloat (Fin (inject_Z z)))
  | VBool b => Some (VFloat (Fin (if b then 1%Q else 0%Q)))
  | _ => None
  end.

Fixpoint characters (s : string) : list val :=
  match s with EmptyString => [] | String a s' => VStr (String a EmptyString) :: characters s' end.

(** [iter(argument)].  Keys other than strings and integers are left out. *)
Definition iterate (v : val) : res (list val) :=
  match v with
  | VList l | VTuple l => Ok l
  | VStr s => Ok (characters s)
  | VDict d => Ok (map (fun kv => match fst kv with KStr s => VStr s | KInt z => VInt z | KOther _ => VNone end) d)
  | _ => Err TypeError
  end.

(** [len(cls.mro())]: attributes of typings are those of their origin *)
Definition mro_length (t : ty) : res nat :=
  match t with
  | TClass c => Ok (mro c)
  | TList _ => Ok (mro "list")
  | TDict _ _ => Ok (mro "dict")
  | TTuple _ => Ok (mro "tuple")
  | TGeneric n _ => Ok (mro n)
  | TAny | TEllipsis | TUnion _ => Err AttributeError
  end.

(** [cls.dict_to_object(argument)] *)
Definition class_dict_to_object (t : ty) (v : val) : res val :=
  match t with
  | TClass c => match kind c with
                | Serializable => if builtin c then Err AttributeError else dict_to_object c v
                | _ => Err AttributeError
                end
  | _ => Err AttributeError
  end.

(** index of the first greatest number *)
Fixpoint argmax (l : list nat) : option nat :=
  match l with
  | [] => None
  | x :: l' =>
      match argmax l' with
      | None => Some 0
      | Some i => if nth i l' 0 <=? x then Some 0 else Some (S i)
      end
  end.

(** the loop on classes of deserialize_with_typing, serialization.py:383-404; [max] of an
    empty list raises ValueError.  The classes of a union are distinct: the one removed is
    at the index found. *)
Fixpoint union_loop (n : nat) (classes : list ty) (v : val) : res val :=
  match n with
  | 0 => Err OutOfFuel
  | S n' =>
    let* hierarchy_lengths := mapM mro_length classes in
    match argmax hierarchy_lengths with
    | None => Err ValueError
    | Some i =>
        match class_dict_to_object (nth i classes TAny) v with
        | Ok r => Ok r
        | Err KeyError => union_loop n' (firstn i classes ++ skipn (S i) classes) v
        | Err e => Err e
        end
    end
  end.

(** [deserialize_with_typing] and [deserialize_argument], serialization.py:372-477.
    [isinstance(argument, SerializableObject)] holds for the objects, files are left out of
    the values; iterators are lists.  A bare Type is left out. *)
Fixpoint deserialize_argument (t : ty) (v : val) {struct t} : res val :=
  match v with
  | VNone => Ok VNone
  | VObj _ _ => Ok v
  | _ =>
    match t with
    | TUnion args =>
        if union_is_default_value args
        then match args with a :: _ => deserialize_argument a v | [] => Err IndexError end
        else union_loop (S (List.length args)) args v
    | TList a => let* l := iterate v in let* r := mapM (deserialize_argument a) l in Ok (VList r)
    | TTuple args => let* l := iterate v in let* r := zip_with deserialize_argument args l in Ok (VTuple r)
    | TDict _ _ => Ok v
    | TGeneric name args =>
        if String.eqb name "Iterator" then
          match args with
          | a :: _ => let* l := iterate v in let* r := mapM (deserialize_argument a) l in Ok (VList r)
          | [] => Err IndexError
          end
        else if String.eqb name "InstanceOf" then
          match args with a :: _ => class_dict_to_object a v | [] => Err IndexError end
        else if String.eqb name "Literal" then Ok v
        else Err NotImplementedError
    | TAny => Ok v
    | TEllipsis => Err TypeError
    | TClass c =>
        if builtin c then
          if is_instance v c then Ok v
          else if String.eqb c "float" then of_option TypeError (to_float v) else Err TypeError
        else
          match kind c with
          | File => match v with VList [x] => Ok x | _ => Err TypeError end
          | TextIO => Ok v
          | Serializable => dict_to_object c v
          | Measure => Ok v
          | Other => Err TypeError
          end
    end
  end.
End Arguments.

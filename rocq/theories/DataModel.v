(** Model of data equality, data hash and diff (dessia_common/core.py:110-144 and
    1143-1209, dessia_common/utils/diff.py:91-229). *)
From Coq Require Import ZArith QArith Qabs Bool String Ascii List.
From Verif Require Import Base PyValue.
Import ListNotations.
Open Scope string_scope.
Open Scope list_scope.

Section Pairs.
Context {A B : Type}.
Variable f : A -> B -> bool.
(** [all(f(x, y) for x, y in zip(l, m))] *)
Fixpoint forallb2 (l : list A) (m : list B) : bool :=
  match l, m with
  | x :: l', y :: m' => f x y && forallb2 l' m'
  | _, _ => true
  end.
End Pairs.

Section Data.
(** Class attributes, by full class name: _non_serializable_attributes,
    _non_data_eq_attributes and _non_data_hash_attributes. *)
Variable non_serializable non_data_eq non_data_hash : string -> list string.
(** [__class__.__name__] from the full class name *)
Variable short_name : string -> string.
(** [issubclass] on full class names *)
Variable subclass : string -> string -> bool.
(** Python's [hash] on what is not a value of ours *)
Variable hash_none : Z.
Variable hash_int : Z -> Z.
Variable hash_float : pyfloat -> Z.
Variable hash_class : string -> Z.
Variable hash_key : key -> Z.
(** The float closest to an integer, itself an integer; None when it overflows. *)
Variable float_of : Z -> option Z.
(** [str] on keys and indices *)
Variable str_key : key -> string.
Variable str_nat : nat -> string.

Definition key_in (k : key) (l : list string) : bool := memb key_eqb k (map KStr l).
Definition private (k : key) : bool :=
  match k with KStr (String c _) => Ascii.eqb c "_" | _ => false end.

(** _serializable_dict, serialization.py:40-48: the keys kept *)
Definition serializable (c : string) (k : key) : bool :=
  negb (key_in k (non_serializable c)) && negb (private k).
Definition serializable_dict (c : string) (d : list (key * val)) : list (key * val) :=
  filter (fun kv => serializable c (fst kv)) d.

(** _data_eq_dict, core.py:131-134 *)
Definition eq_key (c : string) (k : key) : bool :=
  serializable c k && negb (key_in k (non_data_eq c ++ ["package_version"; "name"])).
Definition data_eq_dict (c : string) (d : list (key * val)) : list (key * val) :=
  filter (fun kv => eq_key c (fst kv)) d.

(** math.isclose(a, b, abs_tol=FLOAT_TOLERANCE) with its default rel_tol = 1e-9 *)
Definition tolerance : Q := 1 # 1000000000.
Definition isclose (a b : pyfloat) : bool :=
  match a, b with
  | Fin x, Fin y =>
    let diff := Qabs (x - y) in
    Qle_bool diff (tolerance * Qabs y) || Qle_bool diff (tolerance * Qabs x) || Qle_bool diff tolerance
  | PInf, PInf => true
  | NInf, NInf => true
  | _, _ => false
  end.


(** data_eq, dict_data_eq and sequence_data_eq, core.py:1143-1208.  Numpy scalars, files
    and customised _data_eq are left out.  Booleans are integers.  Full class names of
    classes are computed for instances: all are 'builtins.type'.  'name' is deleted from
    a dictionary that never has it. *)
Fixpoint data_eq (v1 v2 : val) {struct v1} : bool :=
  match v1 with
  | VList l1 | VTuple l1 =>
    match seq_of v2 with
    | Some l2 => Nat.eqb (length l1) (length l2) && forallb2 data_eq l1 l2
    | None => false
    end
  | VNone => match v2 with VNone => true | _ => false end
  | VBool b1 => match v2 with
                | VBool b2 => Bool.eqb b1 b2
                | VInt z2 => Z.eqb (Z.b2z b1) z2
                | _ => false
                end
  | VInt z1 => match v2 with
               | VBool b2 => Z.eqb z1 (Z.b2z b2)
               | VInt z2 => Z.eqb z1 z2
               | _ => false
               end
  | VFloat f1 => match v2 with VFloat f2 => isclose f1 f2 | _ => false end
  | VStr s1 => match v2 with VStr s2 => String.eqb s1 s2 | _ => false end
  | VDict d1 =>
    match v2 with
    | VDict d2 => forallb (fun kv => match lookup (fst kv) d2 with
                                     | Some x => data_eq (snd kv) x
                                     | None => false
                                     end) d1
    | _ => false
    end
  | VClass _ _ => match v2 with VClass _ _ => true | _ => false end
  | VObj c1 d1 =>
    match v2 with
    | VObj c2 d2 =>
      String.eqb c1 c2
      && forallb (fun kv => if eq_key c1 (fst kv)
                            then match lookup (fst kv) (data_eq_dict c2 d2) with
                                 | Some x => data_eq (snd kv) x
                                 | None => false
                                 end
                            else true) d1
    | _ => false
    end
  end.

(** ** Hash *)
Definition oadd (a b : option Z) : option Z :=
  match a, b with Some x, Some y => Some (x + y)%Z | _, _ => None end.
Definition omul (n : Z) (a : option Z) : option Z := option_map (Z.mul n) a.
Definition osum (l : list (option Z)) : option Z := fold_right oadd (Some 0%Z) l.

Fixpoint last_of {A} (x : A) (l : list A) : A :=
  match l with [] => x | y :: l' => last_of y l' end.

(** sequence_hash, utils/diff.py:186-201, given the hashes of the elements *)
Definition sequence_hash (hs : list (option Z)) : option Z :=
  match hs with
  | [] => Some 0%Z
  | h :: [] => omul 1 h
  | h :: hs' => oadd (omul (Z.of_nat (length hs)) h) (omul 5381 (last_of h hs'))
  end.

(** [sorted(keys)] raises TypeError unless all keys are strings or all are integers (a
    single key is never compared). *)
Definition orderable {A} (d : list (key * A)) : bool :=
  match d with
  | [_] => true
  | _ => forallb (fun kv => match fst kv with KStr _ => true | _ => false end) d
         || forallb (fun kv => match fst kv with KInt _ => true | _ => false end) d
  end.
Definition key_leb (a b : key) : bool :=
  match a, b with
  | KStr s, KStr t => String.leb s t
  | KInt x, KInt y => Z.leb x y
  | _, _ => true
  end.
(** items of least and greatest key *)
Definition least {A} (x : key * A) (d : list (key * A)) : key * A :=
  fold_left (fun m y => if key_leb (fst m) (fst y) then m else y) d x.
Definition greatest {A} (x : key * A) (d : list (key * A)) : key * A :=
  fold_left (fun m y => if key_leb (fst y) (fst m) then m else y) d x.

(** dict_hash, utils/diff.py:205-229, given the hashes of the values *)
Definition dict_hash (d : list (key * option Z)) : option Z :=
  match d with
  | [] => Some 0%Z
  | x :: d' =>
    if orderable d then
      let first := omul (Z.of_nat (length d)) (snd (least x d')) in
      match d' with
      | [] => first
      | _ => oadd first (omul 313 (snd (greatest x d')))
      end
    else osum (map (fun kh => oadd (Some (hash_key (fst kh))) (snd kh)) d)
  end.

(** _data_hash, core.py:140-144: keys that count *)
Definition hashed_key (c : string) (k : key) : bool :=
  serializable c k && negb (key_in k (non_data_eq c ++ non_data_hash c ++ ["package_version"; "name"])).

Definition data_hash (hs : list (option Z)) : option Z :=
  match osum hs with
  | None => None
  | Some h => option_map (fun f => (f mod 100000)%Z) (float_of h)
  end.

(** choose_hash, utils/diff.py:175-183; None is an OverflowError in a data hash. *)
Fixpoint choose_hash (v : val) : option Z :=
  match v with
  | VList l | VTuple l => sequence_hash (map choose_hash l)
  | VDict d => dict_hash (map (fun kv => (fst kv, choose_hash (snd kv))) d)
  | VStr s => Some (fold_right (fun c n => (Z.of_N (N_of_ascii c) + n)%Z) 0%Z (list_ascii_of_string s))
  | VNone => Some hash_none
  | VBool b => Some (hash_int (Z.b2z b))
  | VInt z => Some (hash_int z)
  | VFloat f => Some (hash_float f)
  | VClass n _ => Some (hash_class n)
  | VObj c d => data_hash (map (fun kv => if hashed_key c (fst kv) then choose_hash (snd kv) else Some 0%Z) d)
  end.

(** DessiaObject.__eq__, core.py:116-129, on two objects; None is an exception. *)
Definition object_eq (o1 o2 : val) : option bool :=
  match o1, o2 with
  | VObj c1 _, VObj c2 _ =>
    match choose_hash o1, choose_hash o2 with
    | Some h1, Some h2 =>
      Some (if Z.eqb h1 h2 then
              if String.eqb (short_name c1) (short_name c2) then data_eq o1 o2 else false
            else false)
    | _, _ => None
    end
  | _, _ => None
  end.

(** ** Diff *)
Record difference := mkDiff {
  different_values : list (string * val * val);
  missing_attributes : list (string * bool);      (* path, missing in the first object *)
  invalid_types : list (string * val * val) }.
Definition no_diff : difference := mkDiff [] [] [].
Definition add_diff (a b : difference) : difference :=
  mkDiff (different_values a ++ different_values b) (missing_attributes a ++ missing_attributes b)
         (invalid_types a ++ invalid_types b).
Definition is_empty (d : difference) : bool :=
  match d with mkDiff [] [] [] => true | _ => false end.

(** [isinstance(v1, type(v2))] *)
Definition isinstance_of (v1 v2 : val) : bool :=
  match v1, v2 with
  | VNone, VNone | VBool _, VBool _ | VBool _, VInt _ | VInt _, VInt _ | VFloat _, VFloat _
  | VStr _, VStr _ | VList _, VList _ | VTuple _, VTuple _ | VDict _, VDict _ | VClass _ _, VClass _ _ => true
  | VObj c1 _, VObj c2 _ => String.eqb c1 c2 || subclass c1 c2
  | _, _ => false
  end.

(** [v1 != v2] on base types once [isinstance_of v1 v2] holds *)
Definition base_neq (v1 v2 : val) : bool :=
  match v1, v2 with
  | VNone, VNone => false
  | VBool a, VBool b => negb (Bool.eqb a b)
  | VBool a, VInt b => negb (Z.eqb (Z.b2z a) b)
  | VInt a, VInt b => negb (Z.eqb a b)
  | VFloat (Fin a), VFloat (Fin b) => negb (Qeq_bool a b)
  | VFloat PInf, VFloat PInf | VFloat NInf, VFloat NInf => false
  | VStr a, VStr b => negb (String.eqb a b)
  | _, _ => true
  end.

Definition slash (path s : string) : string := (path ++ "/" ++ s)%string.

(** diff, dict_diff and sequence_diff, utils/diff.py:91-172.  dict_diff goes through the
    larger dictionary, first with its values as first argument.  Recursion is on fuel. *)
Fixpoint diff_fuel (n : nat) (v1 v2 : val) (path : string) {struct n} : res difference :=
  match n with
  | O => Err OutOfFuel
  | S n' =>
    let dict_diff (d1 d2 : list (key * val)) : res difference :=
      let swap := Nat.ltb (length d1) (length d2) in
      let d := if swap then d2 else d1 in
      let other := if swap then d1 else d2 in
      foldM (fun acc kv =>
               match lookup (fst kv) other with
               | None => Ok (mkDiff (different_values acc)
                               (missing_attributes acc ++ [(slash path (str_key (fst kv)), swap)]) (invalid_types acc))
               | Some x => let* dk := diff_fuel n' (snd kv) x (slash path (str_key (fst kv))) in Ok (add_diff acc dk)
               end) d no_diff in
    match seq_of v1, seq_of v2 with
    | Some l1, Some l2 =>
      if negb (Nat.eqb (length l1) (length l2)) then Ok (mkDiff [(path, v1, v2)] [] [])
      else foldM (fun acc iv => let* dk := diff_fuel n' (fst (snd iv)) (snd (snd iv)) (slash path (str_nat (fst iv))) in
                                Ok (add_diff acc dk))
             (combine (seq O (length l1)) (combine l1 l2)) no_diff
    | _, _ =>
      if negb (isinstance_of v1 v2) then Ok (mkDiff [] [] [(path, v1, v2)])
      else match v1, v2 with
           | VFloat a, VFloat b =>
             if isclose a b then Ok no_diff
             else Ok (if base_neq v1 v2 then mkDiff [(path, v1, v2)] [] [] else no_diff)
           | VNone, _ | VBool _, _ | VInt _, _ | VStr _, _ =>
             Ok (if base_neq v1 v2 then mkDiff [(path, v1, v2)] [] [] else no_diff)
           | VDict d1, VDict d2 => dict_diff d1 d2
           | VObj c1 d1, VObj c2 d2 =>
             if data_eq v1 v2 then Ok no_diff
             else dict_diff (filter (fun kv => negb (key_eqb (fst kv) (KStr "name"))) (serializable_dict c1 d1))
                            (serializable_dict c2 d2)
           | VClass n1 true, _ => Err TypeError     (* value1._data_eq is not bound *)
           | VClass n1 false, VClass n2 _ => if String.eqb n1 n2 then Ok no_diff else Err NotImplementedError
           | _, _ => Err NotImplementedError
           end
    end
  end.

(** Number of levels of a value. *)
Fixpoint depth (v : val) : nat :=
  match v with
  | VList l | VTuple l => S (fold_right (fun x n => Nat.max (depth x) n) O l)
  | VDict d | VObj _ d => S (fold_right (fun kv n => Nat.max (depth (snd kv)) n) O d)
  | _ => O
  end.

Definition diff (v1 v2 : val) (path : string) : res difference := diff_fuel (S (depth v1)) v1 v2 path.
End Data.

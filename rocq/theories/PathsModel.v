(** Model of deep access by path (dessia_common/utils/helpers.py:110-193). *)
From Coq Require Import ZArith Bool String Ascii List.
From Verif Require Import Base PyValue.
Import ListNotations.
Open Scope string_scope.
Open Scope list_scope.

(** ** Strings *)
(** [path.lstrip('#/')] *)
Fixpoint lstrip (s : string) : string :=
  match s with
  | String c s' => if Ascii.eqb c "#" || Ascii.eqb c "/" then lstrip s' else s
  | EmptyString => EmptyString
  end.
(** [path.split('/')] *)
Fixpoint split (s : string) : list string :=
  match s with
  | EmptyString => [EmptyString]
  | String c s' => if Ascii.eqb c "/" then EmptyString :: split s'
                   else match split s' with
                        | x :: l => String c x :: l
                        | [] => [String c EmptyString]
                        end
  end.
Definition segments (path : string) : list string := split (lstrip path).

(** [segment.startswith('(') and segment.endswith(')') and ',' in segment] *)
Definition tuple_like (s : string) : bool :=
  let l := list_ascii_of_string s in
  match l with c :: _ => Ascii.eqb c "(" | [] => false end
  && Ascii.eqb (last l " "%char) ")" && existsb (Ascii.eqb ",") l.

(** ** Places in a value.  Values are trees: two parts of a value are never the same
    python object, so changing one in place is changing the tree at one location. *)
Inductive step := Idx (i : nat) | Item (k : key).

Fixpoint update_nth {A} (i : nat) (x : A) (l : list A) : list A :=
  match l, i with
  | [], _ => []
  | _ :: l', O => x :: l'
  | y :: l', S i' => y :: update_nth i' x l'
  end.

(** the value with another part at a step *)
Definition put (v : val) (st : step) (x : val) : val :=
  match v, st with
  | VList l, Idx i => VList (update_nth i x l)
  | VTuple l, Idx i => VTuple (update_nth i x l)
  | VDict d, Item k => VDict (set_key k x d)
  | VObj c d, Item k => VObj c (set_key k x d)
  | _, _ => v
  end.
Definition child (v : val) (st : step) : option val :=
  match v, st with
  | VList l, Idx i | VTuple l, Idx i => nth_error l i
  | VDict d, Item k | VObj _ d, Item k => lookup k d
  | _, _ => None
  end.
Fixpoint put_at (v : val) (loc : list step) (x : val) : val :=
  match loc with
  | [] => x
  | st :: loc' => match child v st with Some w => put v st (put_at w loc' x) | None => v end
  end.

Section Paths.
(** [int(segment)] (None is a ValueError) and [segment.isdigit()] *)
Variable int_of : string -> option Z.
Variable isdigit : string -> bool.

(** extract_segment_from_object, helpers.py:110-145: where the segment leads and what is
    there.  Dictionaries with tuples as keys are left out, so a segment that looks like a
    tuple is not found.  Attributes are those of [__dict__]. *)
Definition find (v : val) (s : string) : res (step * val) :=
  match v with
  | VList l | VTuple l =>
    match int_of s with
    | None => Err ExtractionError
    | Some z => match py_index (length l) z with
                | Some i => let* w := of_option IndexError (nth_error l i) in Ok (Idx i, w)
                | None => Err IndexError
                end
    end
  | VDict d =>
    match lookup (KStr s) d with
    | Some w => Ok (Item (KStr s), w)
    | None =>
      if isdigit s then
        match int_of s with
        | None => Err ValueError
        | Some z => let* w := of_option ExtractionError (lookup (KInt z) d) in Ok (Item (KInt z), w)
        end
      else if tuple_like s then Err KeyError else Err ExtractionError
    end
  | VObj _ d => let* w := of_option AttributeError (lookup (KStr s) d) in Ok (Item (KStr s), w)
  | _ => Err AttributeError
  end.

Definition ref_marker : key := KStr "$ref".

(** get_in_object_from_path, helpers.py:148-174 (both markers are the same string): the
    location reached and its value.  A path that does not end at a reference never
    returns one.  Nested references use up fuel; python's stack is as deep. *)
Fixpoint get_at (n : nat) (evaluate_pointers : bool) (root : val) (segs : list string) : res (list step * val) :=
  match n with
  | O => Err RecursionError
  | S n' =>
    foldM (fun (lv : list step * val) s =>
             let* lv' := match snd lv with
                         | VDict d =>
                           if evaluate_pointers then
                             match lookup ref_marker d with
                             | None => Ok lv
                             | Some (VStr t) => get_at n' true root (segments t)
                             | Some _ => Err AttributeError
                             end
                           else Ok lv
                         | _ => Ok lv
                         end in
             let* sw := find (snd lv') s in
             Ok (fst lv' ++ [fst sw], snd sw)) segs ([], root)
  end.
Definition get_in_object_from_path (n : nat) (root : val) (path : string) (evaluate_pointers : bool) : res val :=
  let* lv := get_at n evaluate_pointers root (segments path) in Ok (snd lv).

(** [last_object[...] = value] and [setattr], helpers.py:188-193.  Classes are not changed. *)
Definition write (v : val) (s : string) (x : val) : res val :=
  match v with
  | VList l => match int_of s with
               | None => Err ValueError
               | Some z => match py_index (length l) z with
                           | Some i => Ok (VList (update_nth i x l))
                           | None => Err IndexError
                           end
               end
  | VTuple l => match int_of s with None => Err ValueError | Some _ => Err TypeError end
  | VDict d => Ok (VDict (set_key (KStr s) x d))
  | VObj c d => Ok (VObj c (set_key (KStr s) x d))
  | _ => Err AttributeError
  end.

(** set_in_object_from_path, helpers.py:179-193: the root once changed *)
Definition set_in_object_from_path (n : nat) (root : val) (path : string) (x : val) (evaluate_pointers : bool) : res val :=
  let reduced_path := String.concat "/" (removelast (segments path)) in
  let last_segment := last (split path) "" in
  let* lv := if String.eqb reduced_path "" then Ok ([], root)
             else get_at n evaluate_pointers root (segments reduced_path) in
  let* w := write (snd lv) last_segment x in
  Ok (put_at root (fst lv) w).
End Paths.

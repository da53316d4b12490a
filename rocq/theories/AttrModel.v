(** Model of the blocks that read and write an attribute of an object while a workflow runs
    (dessia_common/workflow/blocks.py:1158-1285). *)
From Coq Require Import ZArith Bool String Ascii List.
From Verif Require Import Base PathsModel.
Import ListNotations.
Open Scope string_scope.
Open Scope list_scope.

(** Objects are shared: a value is something that cannot be changed or the address of an
    object. *)
Inductive value := Atom (n : Z) | Ref (a : nat).

(** What is at an address: an instance with its [__dict__], a list, or a dictionary.
    Dictionaries have strings as keys. *)
Inductive content :=
| Inst (attrs : list (string * value))
| Seq (l : list value)
| Dict (items : list (string * value)).

Definition heap := nat -> content.

(** [d[k]], or [getattr] on the [__dict__] of an instance: properties, class attributes and
    [__getattr__] are left out *)
Fixpoint entry (k : string) (d : list (string * value)) : option value :=
  match d with
  | [] => None
  | (k', v) :: d' => if String.eqb k k' then Some v else entry k d'
  end.

(** [setattr] on a [__dict__]: in place, or at the end.  [__slots__], properties with a
    setter and [__setattr__] are left out. *)
Fixpoint set_entry (k : string) (v : value) (d : list (string * value)) : list (string * value) :=
  match d with
  | [] => [(k, v)]
  | (k', w) :: d' => if String.eqb k k' then (k, v) :: d' else (k', w) :: set_entry k v d'
  end.

Definition store (h : heap) (a : nat) (c : content) : heap := fun b => if Nat.eqb b a then c else h b.

Section Attr.
(** [int(segment)], None is a ValueError *)
Variable int_of : string -> option Z.

(** extract_segment_from_object, utils/helpers.py:110-145.  A segment that looks like a tuple
    is looked up as a tuple, which is no key here. *)
Definition extract (h : heap) (v : value) (s : string) : res value :=
  match v with
  | Atom _ => Err AttributeError
  | Ref a =>
    match h a with
    | Seq l => let* i := of_option ExtractionError (int_of s) in py_get l i
    | Dict d => of_option (if tuple_like s then KeyError else ExtractionError) (entry s d)
    | Inst d => of_option AttributeError (entry s d)
    end
  end.

(** ModelAttribute.evaluate and GetModelAttribute.evaluate, blocks.py:1189-1191, 1236-1238, on
    top of get_in_object_from_path, utils/helpers.py:148-176.  Dictionaries that hold a
    reference marker are left out (they are in [PathsModel]). *)
Definition get_block (h : heap) (name : string) (v : value) : res value :=
  foldM (extract h) (segments ("#/" ++ name)) v.

(** SetModelAttribute.evaluate, blocks.py:1281-1285: [setattr] with the whole name; the block
    gives back the object that it was given *)
Definition set_block (h : heap) (name : string) (v x : value) : res (heap * value) :=
  match v with
  | Atom _ => Err AttributeError
  | Ref a =>
    match h a with
    | Inst d => Ok (store h a (Inst (set_entry name x d)), v)
    | _ => Err AttributeError
    end
  end.

(** Blocks, with the numbers of their variables. *)
Inductive block :=
| Get (name : string) (model out : nat)
| Set_ (name : string) (model val out : nat).

(** [values] of the run, workflow/core.py:1395-1417 *)
Definition values := list (nat * value).
Fixpoint value_of (n : nat) (e : values) : option value :=
  match e with
  | [] => None
  | (m, v) :: e' => if Nat.eqb n m then Some v else value_of n e'
  end.

(** One block evaluated, its output written to the values. *)
Definition eval_block (st : heap * values) (b : block) : res (heap * values) :=
  let '(h, e) := st in
  match b with
  | Get name m out =>
    let* v := of_option KeyError (value_of m e) in
    let* w := get_block h name v in Ok (h, (out, w) :: e)
  | Set_ name m x out =>
    let* v := of_option KeyError (value_of m e) in
    let* w := of_option KeyError (value_of x e) in
    let* r := set_block h name v w in
    let '(h', v') := r in Ok (h', (out, v') :: e)
  end.

(** The run of the blocks in the order in which the workflow evaluates them.  Pipes are
    variables of the same number. *)
Definition run (bs : list block) (h : heap) (e : values) : res (heap * values) := foldM eval_block bs (h, e).
End Attr.

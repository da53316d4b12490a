(** Vocabulary for deep copies. *)
From Coq Require Import ZArith Bool String Ascii List.
From Verif Require Import Base PyValue CopyModel.
Import ListNotations.
Open Scope string_scope.
Open Scope list_scope.

(** The same value over other objects, with lists for tuples. *)
Fixpoint image (f : nat -> nat) (v : mval) : mval :=
  match v with
  | MLeaf x => MLeaf x
  | MList l | MTuple l => MList (map (image f) l)
  | MDict d => MDict (map (fun kv => (fst kv, image f (snd kv))) d)
  | MRef a => MRef (f a)
  end.

(** Induction over values with hypotheses for the values inside. *)
Section Ind.
Variable P : mval -> Prop.
Hypothesis HLeaf : forall v, P (MLeaf v).
Hypothesis HList : forall l, Forall P l -> P (MList l).
Hypothesis HTuple : forall l, Forall P l -> P (MTuple l).
Hypothesis HDict : forall d, Forall (fun kv => P (snd kv)) d -> P (MDict d).
Hypothesis HRef : forall a, P (MRef a).
Fixpoint mval_ind' (v : mval) : P v :=
  match v with
  | MLeaf x => HLeaf x
  | MList l => HList l ((fix go l : Forall P l :=
      match l with [] => Forall_nil _ | x :: l' => Forall_cons x (mval_ind' x) (go l') end) l)
  | MTuple l => HTuple l ((fix go l : Forall P l :=
      match l with [] => Forall_nil _ | x :: l' => Forall_cons x (mval_ind' x) (go l') end) l)
  | MDict d => HDict d ((fix go d : Forall (fun kv => P (snd kv)) d :=
      match d with [] => Forall_nil _ | kv :: d' => Forall_cons kv (mval_ind' (snd kv)) (go d') end) d)
  | MRef a => HRef a
  end.
End Ind.

(** A value that refers to an object, outside other objects. *)
Inductive refers : mval -> nat -> Prop :=
| rf_here a : refers (MRef a) a
| rf_list l x a : In x l -> refers x a -> refers (MList l) a
| rf_tuple l x a : In x l -> refers x a -> refers (MTuple l) a
| rf_dict d k x a : In (k, x) d -> refers x a -> refers (MDict d) a.

Section Spec.
Variable arguments : string -> list string.
Variable construct : string -> list (string * mval) -> res (list (key * mval)).
Variable h : heap.

(** the constructor arguments, apart from 'self' *)
Definition args (c : string) : list string := filter (fun s => negb (String.eqb s "self")) (arguments c).

(** [part a b]: the object [b] is used to make the object [a], directly or not. *)
Inductive part : nat -> nat -> Prop :=
| pt_direct a c d s x b : nth_error h a = Some (c, d) -> In s (args c) -> In (KStr s, x) d -> refers x b -> part a b
| pt_trans a b b' : part a b -> part b b' -> part a b'.

(** What can be copied: leaves are leaves, dictionaries have distinct keys and no tuple as
    key. *)
Variable tuple_key : key -> bool.
Inductive plain : mval -> Prop :=
| pl_leaf x : leaf x = true -> plain (MLeaf x)
| pl_list l : Forall plain l -> plain (MList l)
| pl_tuple l : Forall plain l -> plain (MTuple l)
| pl_dict d : NoDup (map fst d) -> Forall (fun kv => tuple_key (fst kv) = false) d -> Forall (fun kv => plain (snd kv)) d -> plain (MDict d)
| pl_ref a : plain (MRef a).

(** An object whose arguments are attributes, distinct, and can be copied *)
Definition copyable (a : nat) : Prop :=
  exists c d, nth_error h a = Some (c, d) /\ NoDup (map fst d) /\ NoDup (arguments c)
   /\ forall s, In s (args c) -> exists x, In (KStr s, x) d /\ plain x.

(** The constructor accepts its arguments. *)
Definition constructible (c : string) : Prop :=
  forall kw, map fst kw = args c -> exists attrs, construct c kw = Ok attrs.

(** The objects met from [a] when [rep x] is copied in place of [x]. *)
Inductive met (rep : nat -> nat) (a : nat) : nat -> Prop :=
| me_root : met rep a a
| me_arg x c d s v y : met rep a x -> nth_error h (rep x) = Some (c, d) -> In s (args c) -> In (KStr s, v) d -> refers v y -> met rep a y.

(** [f] is a copy of the object at [a] and of what it is made of: [f x] is the copy of [x],
    a new object made by the constructor from the images of the arguments of the object
    [rep x], which is [x] itself or an object held equal to it. *)
Definition copies (same : nat -> nat -> bool) (h' : heap) (f rep : nat -> nat) (a : nat) : Prop :=
  (forall x, met rep a x -> length h <= f x /\ (rep x = a \/ part a (rep x)) /\ (rep x = x \/ same (rep x) x = true)
     /\ exists c d kw attrs, nth_error h (rep x) = Some (c, d) /\ map fst kw = args c
        /\ (forall s y, In (s, y) kw -> exists v, In (KStr s, v) d /\ y = image f v)
        /\ construct c kw = Ok attrs /\ nth_error h' (f x) = Some (c, attrs))
  /\ (forall x y, met rep a x -> met rep a y -> (f x = f y <-> rep x = rep y)).

(** The tree a value in memory stands for *)
Inductive reads : mval -> val -> Prop :=
| rd_leaf x : leaf x = true -> reads (MLeaf x) x
| rd_list l m : Forall2 reads l m -> reads (MList l) (VList m)
| rd_tuple l m : Forall2 reads l m -> reads (MTuple l) (VTuple m)
| rd_dict d e : Forall2 (fun kx ky => fst kx = fst ky /\ reads (snd kx) (snd ky)) d e -> reads (MDict d) (VDict e)
| rd_ref a c d e : nth_error h a = Some (c, d) ->
    Forall2 (fun kx ky => fst kx = fst ky /\ reads (snd kx) (snd ky)) d e -> reads (MRef a) (VObj c e).
End Spec.

(** A value without anything that cannot be copied, apart from the objects it refers to *)
Inductive possible (tuple_key : key -> bool) : mval -> Prop :=
| po_leaf x : leaf x = true -> possible tuple_key (MLeaf x)
| po_list l : Forall (possible tuple_key) l -> possible tuple_key (MList l)
| po_tuple l : Forall (possible tuple_key) l -> possible tuple_key (MTuple l)
| po_dict d : Forall (fun kv => tuple_key (fst kv) = false /\ possible tuple_key (snd kv)) d -> possible tuple_key (MDict d)
| po_ref a : possible tuple_key (MRef a).

(** The objects of a heap are made of one another without cycle, at most so deep. *)
Fixpoint depth_below (arguments : string -> list string) (h : heap) (n : nat) (v : mval) : Prop :=
  match n with
  | O => False
  | S n' =>
    match v with
    | MLeaf _ => True
    | MList l | MTuple l => Forall (depth_below arguments h n') l
    | MDict d => Forall (fun kv => depth_below arguments h n' (snd kv)) d
    | MRef a => forall c d s x, nth_error h a = Some (c, d) -> In s (args arguments c) -> In (KStr s, x) d -> depth_below arguments h n' x
    end
  end.

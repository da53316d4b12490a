(** What blocks that read and write attributes have to do, without the model's functions. *)
From Coq Require Import ZArith Bool String Ascii List.
From Verif Require Import Base PathsSpec AttrModel.
Import ListNotations.
Open Scope string_scope.
Open Scope list_scope.

Section Spec.
Variable int_of : string -> option Z.

(** One step from a value to a part of it. *)
Inductive part (h : heap) : value -> string -> value -> Prop :=
| PInst a d1 d2 s w : h a = Inst (d1 ++ (s, w) :: d2) -> ~ In s (map fst d1) -> part h (Ref a) s w
| PDict a d1 d2 s w : h a = Dict (d1 ++ (s, w) :: d2) -> ~ In s (map fst d1) -> part h (Ref a) s w
| PFront a l1 w l2 s : h a = Seq (l1 ++ w :: l2) -> int_of s = Some (Z.of_nat (List.length l1)) -> part h (Ref a) s w
| PBack a l1 w l2 s : h a = Seq (l1 ++ w :: l2) -> int_of s = Some (- Z.of_nat (S (List.length l2)))%Z -> part h (Ref a) s w.

(** Some steps. *)
Inductive reaches (h : heap) : value -> list string -> value -> Prop :=
| RHere v : reaches h v [] v
| RStep v s w ss x : part h v s w -> reaches h w ss x -> reaches h v (s :: ss) x.
End Spec.

(** A name is deep when it has a slash. *)
Definition deep (name : string) : Prop := exists a b, name = (a ++ String "/" b)%string.

(** The value of an attribute of the instance at an address. *)
Definition attribute (h : heap) (a : nat) (n : string) (v : value) : Prop :=
  exists d1 d2, h a = Inst (d1 ++ (n, v) :: d2) /\ ~ In n (map fst d1).

(** [h'] is [h] but for one attribute of one instance. *)
Definition only_attribute (h h' : heap) (a : nat) (n : string) (x : value) : Prop :=
  (exists d, h' a = Inst d) /\ attribute h' a n x /\
  (forall m v, m <> n -> (attribute h' a m v <-> attribute h a m v)) /\
  (forall b, b <> a -> h' b = h b).

(** Names that some blocks set; no name that they read goes through one of those. *)
Definition sets (bs : list block) (n : string) : Prop := exists m x o, In (Set_ n m x o) bs.
Definition reads_unset (bs : list block) : Prop :=
  forall name m o, In (Get name m o) bs ->
  exists segs, good_segments segs /\ name = String.concat "/" segs /\ forall s, In s segs -> ~ sets bs s.

(** What is raised by a part that is not there. *)
Definition between_brackets (s : string) : Prop :=
  exists mid, s = ("(" ++ mid ++ ")")%string /\ In ","%char (list_ascii_of_string mid).
Inductive refuses (int_of : string -> option Z) (h : heap) : value -> string -> exn -> Prop :=
| FAtom n s : refuses int_of h (Atom n) s AttributeError
| FInst a d s : h a = Inst d -> refuses int_of h (Ref a) s AttributeError
| FWord a l s : h a = Seq l -> int_of s = None -> refuses int_of h (Ref a) s ExtractionError
| FRange a l s i : h a = Seq l -> int_of s = Some i -> refuses int_of h (Ref a) s IndexError
| FTuple a d s : h a = Dict d -> between_brackets s -> refuses int_of h (Ref a) s KeyError
| FKey a d s : h a = Dict d -> ~ between_brackets s -> refuses int_of h (Ref a) s ExtractionError.

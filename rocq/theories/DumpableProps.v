(** C87: values that can be serialised. *)
From Coq Require Import ZArith Bool String Ascii List.
From Verif Require Import Base PyValue SerialModel DumpableModel DumpableSpec DumpableProofs.
Import ListNotations.
Open Scope string_scope.
Open Scope list_scope.

Section Dumpable.
Variable non_serializable : string -> list string.
Variable jsonable : val -> bool.
Variable annotation_of_class : string -> string.
Variable other_dumped : nat -> bool.
Variable other_serializable : nat -> res bool.
Notation serialize := (serialize non_serializable jsonable annotation_of_class).
Notation is_jsonable := (is_jsonable jsonable other_dumped).
Notation is_serializable := (is_serializable non_serializable jsonable annotation_of_class other_dumped other_serializable).

(** A value is serializable when what serialize makes of it can be written in JSON. *)
Theorem C87_serializable : forall v, simple v ->
  (is_serializable v = Ok true <-> exists s, serialize v = Ok s /\ is_jsonable s = true).
Proof. apply serializable_iff. Qed.

(** What can be written in JSON is serializable. *)
Theorem C87_jsonable : forall v, is_jsonable v = true ->
  is_serializable v = Ok true /\ exists s, serialize v = Ok s /\ is_jsonable s = true.
Proof. intros v H. split; [destruct v; cbn [DumpableModel.is_serializable]; rewrite H; reflexivity|]. apply jsonable_serialize. exact H. Qed.

(** Without objects there is always an answer. *)
Theorem C87_answer : forall v, objectless v -> exists b, is_serializable v = Ok b.
Proof. apply answer. Qed.

(** An object that cannot be serialised raises, also in a sequence. *)
Theorem C87_object_refuted : forall c d e, serialize (VObj c d) = Err e ->
  is_serializable (VObj c d) = Err e /\
  forall l r, Forall (fun x => is_serializable x = Ok true) l -> is_serializable (VList (l ++ VObj c d :: r)) = Err e.
Proof.
  intros c d e H. assert (E : is_serializable (VObj c d) = Err e).
  { cbn [DumpableModel.is_serializable DumpableModel.is_jsonable]. rewrite H. reflexivity. }
  split; [exact E|]. intros l r F. cbn [DumpableModel.is_serializable].
  replace (is_jsonable (VList (l ++ VObj c d :: r))) with false.
  - induction F as [|x l Hx _ IH]; cbn [app every]; [rewrite E; reflexivity|]. rewrite Hx. exact IH.
  - symmetry. cbn. rewrite forallb_app. cbn. apply andb_false_r.
Qed.

(** A class is serialised, but not serializable. *)
Theorem C87_class_refuted : forall n b, is_serializable (VClass n b) = Ok false /\ serialize (VClass n b) = Ok (VStr (annotation_of_class n)).
Proof. intros; split; reflexivity. Qed.

(** Dictionaries are serializable when their keys are, while JSON does not take all of them as keys. *)
Theorem C87_key_refuted : forall d n x,
  Forall (fun kv => key_serializable jsonable other_serializable (fst kv) = Ok true /\ is_serializable (snd kv) = Ok true) d ->
  In (KOther n, x) d -> other_dumped n = false ->
  is_serializable (VDict d) = Ok true /\ forall s, serialize (VDict d) = Ok s -> is_jsonable s = false.
Proof.
  intros d n x F I O. split; [apply items_true; exact F|]. apply (key_left _ _ _ _ _ n x); auto.
Qed.
End Dumpable.

Print Assumptions C87_serializable.
Print Assumptions C87_jsonable.
Print Assumptions C87_answer.
Print Assumptions C87_object_refuted.
Print Assumptions C87_class_refuted.
Print Assumptions C87_key_refuted.

(** ** Examples *)
(** integers of 64 bits only; the key 0 is a tuple *)
Definition small (v : val) : bool := match v with VInt z => Z.ltb (Z.abs z) (2 ^ 63) | _ => true end.
Definition ex_serializable := is_serializable (fun _ => ["cache"]) small (fun n => n) (fun _ => false) (fun _ => Ok true).
Definition wheel (z : Z) : val := VObj "cars.Wheel" [(KStr "name", VStr "left"); (KStr "size", VTuple [VInt z; VFloat NaN]); (KStr "kind", VClass "cars.Kind" true)].
Example C87_serializable_ex : ex_serializable (VDict [(KStr "a", VList [wheel 5]); (KInt 3, VNone)]) = Ok true.
Proof. reflexivity. Qed.
Example C87_serializable_ex2 : ex_serializable (VList [VInt (2 ^ 70); wheel 4]) = Ok false.
Proof. reflexivity. Qed.
Example C87_serializable_ex3 : exists s, serialize (fun _ => ["cache"]) small (fun n => n) (VDict [(KStr "a", VList [wheel 5]); (KInt 3, VNone)]) = Ok s
  /\ is_jsonable small (fun _ => false) s = true.
Proof.
  apply (C87_serializable (fun _ => ["cache"]) small (fun n => n) (fun _ => false) (fun _ => Ok true)); [|reflexivity].
  constructor; repeat constructor.
Qed.
Example C87_object_ex : ex_serializable (wheel (2 ^ 70)) = Err SerializationError /\ ex_serializable (VList [VInt 1; wheel (2 ^ 70)]) = Err SerializationError.
Proof. split; reflexivity. Qed.
Example C87_class_ex : ex_serializable (VList [VInt 1; VClass "cars.Car" true]) = Ok false.
Proof. reflexivity. Qed.
Example C87_key_ex : ex_serializable (VDict [(KOther 0, wheel 5)]) = Ok true.
Proof. reflexivity. Qed.

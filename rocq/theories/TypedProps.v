(** Theorems about the types written beside values. *)
From Coq Require Import Bool String List Lia.
From Verif Require Import Base TypedModel TypedSpec TypedProofs.
Import ListNotations.
Open Scope string_scope.
Open Scope list_scope.

Theorem C82_type : forall v t, recursive_type v = Ok t <-> has_type v t.
Proof. exact recursive_has. Qed.
Print Assumptions C82_type.

Example C82_type_example :
  recursive_type (Sequence_ [Object_ "m.Car" 1; Sequence_ [Int_; None_]; WithOutput (TText "m.Out")])
  = Ok (TList [TText "m.Car"; TList [TText "int"; TNone]; TText "m.Out"]).
Proof. reflexivity. Qed.

Theorem C82_no_type :
  (forall v x, (x = Inherited \/ x = Other) -> within x v -> exists e, recursive_type v = Err e) /\
  (forall v e, recursive_type v = Err e ->
     (e = KeyError /\ within Inherited v) \/ (e = NotImplementedError /\ within Other v)).
Proof.
  split; [|exact recursive_err].
  intros v x Hx W. destruct (recursive_type v) as [t|e] eqn:E; [|eauto]. exfalso.
  apply recursive_has in E. destruct (within_typed _ _ _ W E) as [tx T].
  destruct Hx as [->| ->]; inversion T.
Qed.
Print Assumptions C82_no_type.

Example C82_no_type_example :
  recursive_type (Sequence_ [Int_; Sequence_ [Inherited]; Other]) = Err KeyError /\
  recursive_type (Sequence_ [Other; Inherited]) = Err NotImplementedError.
Proof. split; reflexivity. Qed.

(** Lists of objects come back. *)
Theorem C82_back : forall is_class dict_to_object iterate data v t j,
  plain v -> recursive_type v = Ok t -> written data v j ->
  (forall c n, within (Object_ c n) v ->
     ~ In c ["int"; "float"; "boolean"; "str"; "list"; "tuple"; "dict"] /\ is_class c = Ok true) ->
  (forall c n k, data (Object_ c n) k -> dict_to_object c k = Ok n) ->
  exists m, deserialize_with_type is_class dict_to_object iterate t j = Ok m /\ same v m.
Proof.
  intros ic d it data v t j P T W C D. apply recursive_has in T. eapply back_plain; eauto.
Qed.
Print Assumptions C82_back.

Example C82_back_example :
  deserialize_with_type (fun _ => Ok true) (fun _ j => match j with JData n => Ok n | _ => Err TypeError end)
    (fun _ => Err TypeError)
    (TList [TText "m.Car"; TList [TNone; TText "m.Out"]]) (JList [JData 4; JList [JNone; JData 5]])
  = Ok (MList [MObject "m.Car" 4; MList [MAsIs JNone; MObject "m.Out" 5]]).
Proof. reflexivity. Qed.

(** A value that is, or holds, an int, a float, a bool, a str or a dict never comes back from
    its own type. *)
Theorem C82_builtin_refuted :
  (forall is_class dict_to_object iterate v t j,
     simple v -> recursive_type v = Ok t ->
     deserialize_with_type is_class dict_to_object iterate t j = Err ValueError) /\
  (forall is_class dict_to_object iterate data x v t j,
     simple x -> within x v -> recursive_type v = Ok t -> written data v j ->
     exists e, deserialize_with_type is_class dict_to_object iterate t j = Err e).
Proof.
  split.
  - intros ic d it v t j S T. destruct S as [->|[->|[->|[->| ->]]]]; injection T as <-; reflexivity.
  - intros ic d it data x v t j S W T R. apply recursive_has in T. eapply back_simple; eauto.
Qed.
Print Assumptions C82_builtin_refuted.

Example C82_builtin_refuted_example :
  recursive_type (Sequence_ [Object_ "m.Car" 1; Int_]) = Ok (TList [TText "m.Car"; TText "int"]) /\
  deserialize_with_type (fun _ => Ok true) (fun _ _ => Ok 1) (fun _ => Err TypeError)
    (TList [TText "m.Car"; TText "int"]) (JList [JData 1; JData 3]) = Err ValueError.
Proof. split; reflexivity. Qed.

(** Types and values are taken by pairs: what is left over is dropped without an error. *)
Theorem C82_left_over_refuted :
  (forall is_class dict_to_object iterate ts l m,
     deserialize_with_type is_class dict_to_object iterate (TList ts) (JList l) = Ok m ->
     exists ms, m = MList ms /\ length ms = Nat.min (length ts) (length l)) /\
  (forall is_class dict_to_object iterate ts ms l extra,
     length ts = length l ->
     deserialize_with_type is_class dict_to_object iterate (TList ts) (JList l) = Ok ms ->
     deserialize_with_type is_class dict_to_object iterate (TList ts) (JList (l ++ extra)) = Ok ms).
Proof.
  split.
  - intros ic d it ts l m H. rewrite back_list in H.
    destruct (zipM ic d it ts l) as [ms|] eqn:E; [|discriminate]. injection H as <-.
    exists ms. split; [reflexivity | eapply zipM_length; eauto].
  - intros ic d it ts ms l extra L H. rewrite back_list in H |- *.
    assert (E : zipM ic d it ts (l ++ extra) = zipM ic d it ts l).
    { clear H. revert l L. induction ts as [|t ts IH]; intros [|y l] L; try discriminate L.
      - destruct extra; reflexivity.
      - cbn [app zipM]. rewrite IH; [reflexivity | injection L as L; exact L]. }
    rewrite E. exact H.
Qed.
Print Assumptions C82_left_over_refuted.

Example C82_left_over_example :
  deserialize_with_type (fun _ => Ok true) (fun _ _ => Ok 1) (fun _ => Err TypeError)
    (TList [TText "m.Car"]) (JList [JData 1; JData 3]) = Ok (MList [MObject "m.Car" 1]).
Proof. reflexivity. Qed.

(** A name that leads to something that is no class, and values that are no lists. *)
Theorem C82_errors : forall is_class dict_to_object iterate,
  (forall s j, ~ In s ["int"; "float"; "boolean"; "str"; "list"; "tuple"; "dict"] ->
     deserialize_with_type is_class dict_to_object iterate (TText s) j
     = match is_class s with
       | Err e => Err e
       | Ok false => Err NotImplementedError
       | Ok true => match dict_to_object s j with Ok n => Ok (MObject s n) | Err e => Err e end
       end) /\
  (forall ts n e, iterate (JData n) = Err e ->
     deserialize_with_type is_class dict_to_object iterate (TList ts) (JData n) = Err e) /\
  (forall ts l n, iterate (JData n) = Ok l ->
     deserialize_with_type is_class dict_to_object iterate (TList ts) (JData n)
     = deserialize_with_type is_class dict_to_object iterate (TList ts) (JList l)) /\
  (forall j, deserialize_with_type is_class dict_to_object iterate TNone j = Ok (MAsIs j)) /\
  (forall j, deserialize_with_type is_class dict_to_object iterate TOther j = Err NotImplementedError).
Proof.
  intros ic d it. repeat split.
  - intros s j N. cbn [deserialize_with_type].
    destruct (memb String.eqb s types_strings) eqn:Em.
    + exfalso. apply N. unfold memb in Em. apply existsb_exists in Em as (s' & Hs & Es).
      apply String.eqb_eq in Es. subst. exact Hs.
    + destruct (ic s) as [[|]|e]; reflexivity.
  - intros ts n e E. cbn [deserialize_with_type]. now rewrite E.
  - intros ts l n E. cbn [deserialize_with_type]. rewrite E. reflexivity.
Qed.
Print Assumptions C82_errors.

Example C82_errors_example :
  deserialize_with_type (fun _ => Ok false) (fun _ _ => Ok 1) (fun _ => Err TypeError)
    (TText "m.function") (JData 1) = Err NotImplementedError.
Proof. reflexivity. Qed.

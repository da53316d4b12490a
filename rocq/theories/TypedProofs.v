From Coq Require Import Bool String List Lia.
From Verif Require Import Base TypedModel TypedSpec.
Import ListNotations.
Open Scope string_scope.
Open Scope list_scope.

Lemma value_ind' : forall (P : value -> Prop),
  P Bool_ -> P Int_ -> P Float_ -> P Str_ -> P Dict_ -> P Inherited ->
  (forall c n, P (Object_ c n)) -> (forall t, P (WithOutput t)) ->
  (forall l, Forall P l -> P (Sequence_ l)) -> P None_ -> P Other -> forall v, P v.
Proof.
  intros P H1 H2 H3 H4 H5 H6 H7 H8 H9 H10 H11. fix IH 1.
  intros [ | | | | | |c n|t|l| | ];
    [exact H1|exact H2|exact H3|exact H4|exact H5|exact H6|apply H7|apply H8| |exact H10|exact H11].
  apply H9. induction l as [|x l IHl]; constructor; [apply IH | exact IHl].
Qed.

Lemma recursive_seq : forall l,
  recursive_type (Sequence_ l) = let* ts := mapM recursive_type l in Ok (TList ts).
Proof.
  intros l. cbn [recursive_type]. f_equal.
  induction l as [|x l IH]; [reflexivity|]. cbn [mapM]. destruct (recursive_type x); [|reflexivity].
  cbn [bind]. rewrite IH. reflexivity.
Qed.

Lemma recursive_has : forall v t, recursive_type v = Ok t <-> has_type v t.
Proof.
  induction v as [ | | | | | |c n|t'|l IH| | ] using value_ind'; intros t;
    try (split; [intros H; inversion H; subst; constructor | intros H; inversion H; subst; reflexivity]).
  rewrite recursive_seq.
  assert (E : forall ts, mapM recursive_type l = Ok ts <-> Forall2 has_type l ts).
  { induction IH as [|x l Hx _ IHl]; intros ts; cbn [mapM].
    - split; [intros [= <-]; constructor | intros H; inversion H; reflexivity].
    - split.
      + intros H. destruct (recursive_type x) as [a|] eqn:Ea; [|discriminate].
        cbn [bind] in H. destruct (mapM recursive_type l) as [b|] eqn:Eb; [|discriminate].
        injection H as <-. constructor; [apply Hx; reflexivity | apply IHl; reflexivity].
      + intros H. inversion H as [|? y ? ys Hy Hys]; subst. apply Hx in Hy. apply IHl in Hys.
        rewrite Hy, Hys. reflexivity. }
  split.
  - intros H. destruct (mapM recursive_type l) as [ts|] eqn:Em; [|discriminate].
    injection H as <-. constructor. apply E. reflexivity.
  - intros H. inversion H as [ | | | | | | | | ? ts Hts]; subst. apply E in Hts. rewrite Hts. reflexivity.
Qed.

(** The error is that of the first value, in order, that has no type. *)
Lemma recursive_err : forall v e,
  recursive_type v = Err e ->
  (e = KeyError /\ within Inherited v) \/ (e = NotImplementedError /\ within Other v).
Proof.
  induction v as [ | | | | | |c n|t'|l IH| | ] using value_ind'; intros e H; try discriminate.
  - injection H as <-. left. split; constructor.
  - rewrite recursive_seq in H. destruct (mapM recursive_type l) as [ts|e'] eqn:Em; [discriminate|].
    injection H as ->.
    assert (Hx : exists x, In x l /\ recursive_type x = Err e).
    { clear IH. induction l as [|x l IHl]; [discriminate|]. cbn [mapM] in Em.
      destruct (recursive_type x) as [a|a] eqn:Ea.
      - cbn [bind] in Em. destruct (mapM recursive_type l) as [b|b]; [discriminate|].
        destruct (IHl Em) as (y & Hy & Ey). exists y. split; [right; exact Hy | exact Ey].
      - injection Em as ->. exists x. split; [left; reflexivity | exact Ea]. }
    destruct Hx as (x & Hx & Ex). rewrite Forall_forall in IH.
    destruct (IH x Hx e Ex) as [[-> W]|[-> W]]; [left|right]; (split; [reflexivity|]);
      eapply w_in; eauto.
  - injection H as <-. right. split; constructor.
Qed.

Lemma within_typed : forall x v t, within x v -> has_type v t -> exists tx, has_type x tx.
Proof.
  intros x v t W. revert t. induction W as [|l v Hv W IH]; intros t H; [eauto|].
  inversion H as [ | | | | | | | | ? ts Hts]; subst.
  apply In_nth_error in Hv as [k Hk].
  assert (F : exists t', has_type v t').
  { clear -Hts Hk. revert k Hk. induction Hts; intros [|k] Hk; cbn in Hk; try discriminate; eauto.
    injection Hk as <-. eauto. }
  destruct F as [t' Ht']. eauto.
Qed.

Section D.
Variable is_class : string -> res bool.
Variable dict_to_object : string -> json -> res nat.
Variable iterate : json -> res (list json).
Notation back := (deserialize_with_type is_class dict_to_object iterate).

Fixpoint zipM (ts : list type) (l : list json) : res (list made) :=
  match ts, l with
  | x :: ts', y :: l' => let* z := back x y in let* zs := zipM ts' l' in Ok (z :: zs)
  | _, _ => Ok []
  end.

Lemma back_list : forall ts l, back (TList ts) (JList l) = let* r := zipM ts l in Ok (MList r).
Proof.
  reflexivity.
Qed.

Lemma back_plain : forall data v t j,
  plain v -> has_type v t -> written data v j ->
  (forall c n, within (Object_ c n) v -> ~ In c types_strings /\ is_class c = Ok true) ->
  (forall c n k, data (Object_ c n) k -> dict_to_object c k = Ok n) ->
  exists m, back t j = Ok m /\ same v m.
Proof.
  intros data. induction v as [ | | | | | |c n|t'|l IH| | ] using value_ind';
    intros t j P T W C D; try (inversion P; fail).
  - inversion T; subst. inversion W as [? ? _ _ Wd | | ]; subst.
    destruct (C c n (w_here _)) as [N Hc]. cbn [deserialize_with_type].
    destruct (memb String.eqb c types_strings) eqn:Em.
    + exfalso. apply N. revert Em. unfold memb. intros Em. apply existsb_exists in Em as (s & Hs & Es).
      apply String.eqb_eq in Es. subst. exact Hs.
    + rewrite Hc. cbn [bind]. rewrite (D _ _ _ Wd). eexists. split; [reflexivity|constructor].
  - inversion T as [ | | | | | | | | ? ts Hts]; subst.
    inversion W as [? ? N _ _ | | ? js Hjs]; subst; [exfalso; eapply N; reflexivity|].
    inversion P as [ | | ? Pl]; subst.
    rewrite back_list.
    assert (E : exists ms, zipM ts js = Ok ms /\ Forall2 same l ms).
    { clear T W P. revert ts js Hts Hjs.
      induction IH as [|x l Hx _ IHl]; intros ts js Hts Hjs.
      - inversion Hts; subst. exists []. split; [reflexivity|constructor].
      - inversion Hts as [|? tx ? ts' Htx Hts']; subst. inversion Hjs as [|? jx ? js' Hjx Hjs']; subst.
        inversion Pl as [|? ? Px Pl']; subst.
        destruct (Hx tx jx Px Htx Hjx) as (m & Em & Sm); [|exact D|].
        { intros c n Wc. apply (C c n). eapply w_in; [left; reflexivity | exact Wc]. }
        destruct (IHl) with (ts := ts') (js := js') as (ms & Ems & Sms); auto.
        { intros c n Wc. apply (C c n). inversion Wc as [|? y Hy Wy]; subst.
          eapply w_in; [right; exact Hy | exact Wy]. }
        exists (m :: ms). cbn [zipM]. rewrite Em. cbn [bind]. rewrite Ems.
        split; [reflexivity | constructor; assumption]. }
    destruct E as (ms & -> & S). exists (MList ms). split; [reflexivity | constructor; exact S].
  - inversion T; subst. inversion W as [? ? _ N _ | | ]; subst; [exfalso; apply N; reflexivity|].
    exists (MAsIs JNone). split; [reflexivity|constructor].
Qed.

Lemma back_simple : forall data x v t j,
  simple x -> within x v -> has_type v t -> written data v j -> exists e, back t j = Err e.
Proof.
  intros data x v t j S W. revert t j. induction W as [|l v Hv W IH]; intros t j T R.
  - exists ValueError.
    destruct S as [->|[->|[->|[->| ->]]]]; inversion T; subst; reflexivity.
  - inversion T as [ | | | | | | | | ? ts Hts]; subst.
    inversion R as [? ? N _ _ | | ? js Hjs]; subst; [exfalso; eapply N; reflexivity|].
    rewrite back_list.
    assert (E : exists e, zipM ts js = Err e).
    { clear T R. revert ts js Hts Hjs. induction l as [|y l IHl]; intros ts js Hts Hjs; [destruct Hv|].
      inversion Hts as [|? tx ? ts' Htx Hts']; subst. inversion Hjs as [|? jx ? js' Hjx Hjs']; subst.
      cbn [zipM]. destruct Hv as [->|Hv].
      - destruct (IH _ _ Htx Hjx) as [e ->]. exists e. reflexivity.
      - destruct (back tx jx) as [m|e']; [|eexists; reflexivity].
        cbn [bind]. destruct (IHl Hv _ _ Hts' Hjs') as [e ->]. exists e. reflexivity. }
    destruct E as [e ->]. exists e. reflexivity.
Qed.

Lemma zipM_length : forall ts l ms, zipM ts l = Ok ms -> length ms = Nat.min (length ts) (length l).
Proof.
  induction ts as [|t ts IH]; intros [|y l] ms H; cbn [zipM] in H; try (injection H as <-; reflexivity).
  destruct (back t y) as [m|]; [|discriminate]. cbn [bind] in H.
  destruct (zipM ts l) as [ms'|] eqn:E; [|discriminate]. injection H as <-. cbn. f_equal. apply IH, E.
Qed.
End D.

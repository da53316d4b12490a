(** Property C21: locks and default values. *)
From Coq Require Import Bool List.
From Verif Require Import Base VariablesModel.
Import ListNotations.

Section P.
Context {V L : Type}.
Notation variable := (variable V L).
Notation edit := (edit V L).

(** Edits that do not remove the default of a variable that may be locked. *)
Definition keeps_default (e : edit) : Prop :=
  match e with
  | Lock _ | Unlock _ | SetDefault _ => True
  | ResetDefault => False
  | Config v _ _ => v <> None
  end.

Definition sound (x : variable) : Prop := v_lock x = true -> v_default x <> None.

Lemma apply_sound x e : sound x -> keeps_default e -> sound (fst (apply x e)).
Proof.
  unfold sound. destruct e as [[v|]|k|v| |[v|] l []]; simpl; try discriminate; try tauto.
  destruct (v_default x) eqn:D; simpl; auto. congruence.
Qed.

Lemma edits_sound es : forall x, sound x -> (forall e, In e es -> keeps_default e) -> sound (edits es x).
Proof.
  induction es as [|e es IH]; intros x S K; simpl; auto.
  apply IH; [apply apply_sound; auto; apply K; simpl; auto|]. intros; apply K; simpl; auto.
Qed.

(** Whatever the history of locks, unlocks and new defaults, asking whether a
    variable is locked never fails, and a locked variable has a default. *)
Theorem C21_locked_has_default :
  forall (default : option V) (label : L) (es : list edit),
  (forall e, In e es -> keeps_default e) ->
  exists b, is_locked (edits es (new_variable default label)) = Ok b
    /\ (b = true -> exists d, v_default (edits es (new_variable default label)) = Some d).
Proof.
  intros d l es K. assert (S : sound (edits es (new_variable d l))).
  { apply edits_sound; auto. discriminate. }
  unfold is_locked, sound in *. destruct (v_lock _); [|exists false; split; auto; discriminate].
  destruct (v_default _) as [x|]; [exists true; eauto|exfalso; apply S; auto].
Qed.

(** Locking without a value a variable without default is refused, and changes nothing. *)
Theorem C21_lock_without_default_refused :
  forall x : variable, v_default x = None -> lock None x = (x, Some ValueError).
Proof. intros x E. unfold lock. rewrite E. reflexivity. Qed.

(** A lock that is not refused locks: it reports locked with the given value, or
    with the default it had. *)
Theorem C21_lock_locks :
  forall (x : variable) value, snd (lock value x) = None ->
  is_locked (fst (lock value x)) = Ok true
  /\ v_default (fst (lock value x)) = match value with Some v => Some v | None => v_default x end.
Proof.
  intros x [v|]; unfold lock; simpl; [auto|].
  destruct (v_default x) eqn:D; simpl; intros E; [|discriminate]. unfold is_locked. simpl. auto.
Qed.

Theorem C21_unlock_unlocks :
  forall (x : variable) keep,
  is_locked (fst (unlock keep x)) = Ok false
  /\ v_default (fst (unlock keep x)) = if keep then v_default x else None.
Proof. intros x k. split; reflexivity. Qed.

(** A default set on a locked input keeps it locked. *)
Theorem C21_set_default_keeps_lock :
  forall (x : variable) v b, is_locked x = Ok b -> is_locked (fst (set_default (Some v) x)) = Ok b.
Proof.
  intros x v b. unfold is_locked, set_default. simpl. destruct (v_lock x); auto.
  destruct (v_default x); [auto|discriminate].
Qed.

(** Violation: once the default of a locked input is reset, reading its lock raises,
    whatever follows, until an unlock, a lock with a value or a new default. *)
Definition repairs (e : edit) : Prop :=
  match e with
  | Lock (Some _) | Unlock _ | SetDefault _ | Config (Some _) _ _ => True
  | _ => False
  end.

Theorem C21_reset_default_refuted :
  forall (x : variable) es, is_locked x = Ok true -> (forall e, In e es -> ~ repairs e) ->
  is_locked (edits es (fst (apply x ResetDefault))) = Err ValueError.
Proof.
  intros x es Hl Hes. assert (Q : v_lock (fst (apply x ResetDefault)) = true /\ v_default (fst (apply x ResetDefault)) = None).
  { simpl. unfold is_locked in Hl. destruct (v_lock x); [auto|discriminate]. }
  clear Hl. revert Q. generalize (fst (apply x ResetDefault)). clear x.
  induction es as [|e es IH]; intros x [A B]; simpl.
  - unfold is_locked. rewrite A, B. reflexivity.
  - apply IH; [intros; apply Hes; simpl; auto|].
    assert (N := Hes e (or_introl eq_refl)).
    destruct e as [[v|]|k|v| |[v|] l []]; simpl in *; try tauto.
    unfold lock. rewrite B. auto.
Qed.

(** Violation: a configuration that says unlocked leaves a locked variable locked. *)
Theorem C21_config_never_unlocks_refuted :
  forall (x : variable) v label, is_locked x = Ok true ->
  is_locked (fst (update_from_config (Some v) label false x)) = Ok true.
Proof.
  intros x v label. unfold is_locked. simpl. destruct (v_lock x); [auto|discriminate].
Qed.

(** A copy has the default and the lock of the original, and a blank label. *)
Theorem C21_copy :
  forall (blank : L) (x : variable) b, is_locked x = Ok b ->
  exists y, copy blank x = Ok y /\ v_default y = v_default x /\ is_locked y = Ok b /\ v_label y = blank.
Proof.
  intros blank x b H. unfold copy. rewrite H. simpl. unfold is_locked in H.
  destruct (v_lock x) eqn:K.
  - destruct (v_default x) as [d|] eqn:D; [|discriminate]. inversion H; subst b. simpl. eexists. split; [reflexivity|]. auto.
  - inversion H; subst b. eexists. split; [reflexivity|]. auto.
Qed.

End P.

Print Assumptions C21_locked_has_default.
Print Assumptions C21_lock_without_default_refused.
Print Assumptions C21_lock_locks.
Print Assumptions C21_unlock_unlocks.
Print Assumptions C21_set_default_keeps_lock.
Print Assumptions C21_reset_default_refuted.
Print Assumptions C21_config_never_unlocks_refuted.
Print Assumptions C21_copy.

(** A history with a refused lock, a lock, an unlock that drops the default, and a
    lock with a value. *)
Example C21_example :
  let es : list (edit nat nat) := [Lock None; SetDefault 3; Lock None; SetDefault 4; Unlock false; Lock (Some 5)] in
  (forall e, In e es -> keeps_default e)
  /\ is_locked (edits es (new_variable None 0)) = Ok true
  /\ v_default (edits es (new_variable None 0)) = Some 5.
Proof.
  split; [|split; reflexivity]. intros e H. simpl in H.
  repeat (destruct H as [<-|H]; [exact I|]). destruct H.
Qed.

Example C21_reset_example :
  is_locked (new_variable (Some 1) 0) = Ok false
  /\ is_locked (fst (lock None (new_variable (Some 1) 0))) = Ok true
  /\ is_locked (edits [Lock None; Config None 7 true; ResetDefault]
        (fst (apply (fst (lock None (new_variable (Some 1) 0))) ResetDefault))) = Err ValueError.
Proof. repeat split. Qed.

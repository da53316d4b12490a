(** Properties of copies of objects with a cache of arguments. *)
From Coq Require Import List Bool String.
From Verif Require Import Base BaseProofs StaleModel StaleSpec StaleProofs.
Import ListNotations.

Section Props.
Variable value : Type.
Notation obj := (obj value).
Notation after := (after value).
Notation copy := (copy value).

Lemma copy_own (o : obj) : built value o -> copy_with value (names value o) o = Ok o.
Proof.
  destruct o as [c l]. intros [E ND]. unfold built, copy_with, names in *. cbn [class_of attributes] in *.
  destruct (read_ok value l (map fst (arguments value c))) as (kw & -> & F & G); [rewrite E; tauto|]. cbn [bind]. unfold construct.
  rewrite known by (rewrite F; tauto).
  assert (M : mapM (fun nd : string * option value => match lookup (fst nd) kw with
      | Some v => Ok (fst nd, v) | None => match snd nd with Some v => Ok (fst nd, v) | None => Err TypeError end end) (arguments value c) = Ok l).
  { assert (G' : forall n v, In (n, v) l -> lookup n kw = Some v).
    { intros n v I. rewrite G; [apply lookup_in; assumption|]. rewrite <- E. apply in_map_iff. exists (n, v). split; [reflexivity|exact I]. }
    clear - E G'. revert E G'. generalize (arguments value c) as a. induction l as [|[n v] l IH]; intros [|[m d] a] E G'; cbn in E; try discriminate; [reflexivity|].
    injection E as -> E. cbn [mapM fst snd]. rewrite (G' m v (or_introl eq_refl)). cbn [bind]. rewrite IH; [reflexivity|exact E|]. intros n' v' I. apply G'. right. exact I. }
  rewrite M. reflexivity.
Qed.

(** C93. Whatever was copied before, the copy of an object is an object of the same class with the same attributes, when
    classes of the same name have the same arguments. *)
Theorem C93_copy history (o : obj) : built value o ->
  (forall o', In o' history -> named value (full_classname value (class_of value o)) o' -> names value o' = names value o) ->
  fst (copy (after history) o) = Ok o.
Proof.
  intros B H. set (n := full_classname value (class_of value o)) in *. destruct (first_or_none value n history) as [(o1 & F)|N].
  - rewrite (copy_hit value _ _ (names value o1)) by (apply after_first, F). destruct F as (b & l & -> & E & _).
    rewrite (H o1) by (try apply in_elt; exact E). apply copy_own, B.
  - rewrite copy_miss by (apply after_none, N). apply copy_own, B.
Qed.

(** C93. Refuted: when a class of the same name and fewer arguments was copied before, the others get their default value in
    the copy, whatever they are in the object. *)
Theorem C93_lost_refuted history o1 (o : obj) :
  let n := full_classname value (class_of value o) in
  built value o -> first_named value n history o1 -> (forall a, In a (names value o1) -> In a (names value o)) ->
  (forall a d, In (a, d) (arguments value (class_of value o)) -> ~ In a (names value o1) -> d <> None) ->
  exists o', fst (copy (after history) o) = Ok o' /\ class_of value o' = class_of value o /\
    (forall a v, In a (names value o1) -> In (a, v) (attributes value o) -> In (a, v) (attributes value o')) /\
    (forall a d, ~ In a (names value o1) -> In (a, Some d) (arguments value (class_of value o)) -> In (a, d) (attributes value o')) /\
    map fst (attributes value o') = names value o.
Proof.
  intros n [E ND] F S D. rewrite (copy_hit value _ _ (names value o1)) by (apply after_first, F). unfold copy_with.
  destruct (read_ok value (attributes value o) (names value o1)) as (kw & -> & Fk & G); [intros a I; rewrite E; apply S, I|]. cbn [bind]. unfold construct.
  rewrite known by (rewrite Fk; exact S).
  assert (M : exists l, mapM (fun nd : string * option value => match lookup (fst nd) kw with
      | Some v => Ok (fst nd, v) | None => match snd nd with Some v => Ok (fst nd, v) | None => Err TypeError end end) (arguments value (class_of value o)) = Ok l /\
      map fst l = map fst (arguments value (class_of value o)) /\
      (forall a v, In a (map fst (arguments value (class_of value o))) -> lookup a kw = Some v -> In (a, v) l) /\
      (forall a d, In (a, Some d) (arguments value (class_of value o)) -> lookup a kw = None -> In (a, d) l)).
  { assert (D' : forall a d, In (a, d) (arguments value (class_of value o)) -> lookup a kw = None -> d <> None).
    { intros a d I L. apply (D a d I). intros J. rewrite <- Fk in J. destruct (lookup_some a kw J). congruence. }
    clear - D'. revert D'. induction (arguments value (class_of value o)) as [|[m d] l IH]; intros D'.
    - exists []. repeat split; intros a v [].
    - destruct IH as (r & Er & Fr & A & B); [intros a d' I; apply (D' a d'); right; exact I|]. cbn [mapM fst snd].
      assert (X : exists v, match lookup m kw with Some v => Ok (m, v) | None => match d with Some v => Ok (m, v) | None => Err TypeError end end = Ok (m, v) /\
        (forall w, lookup m kw = Some w -> v = w) /\ (forall w, lookup m kw = None -> d = Some w -> v = w)).
      { pose proof (D' m d (or_introl eq_refl)) as Q. destruct (lookup m kw) as [v|]; [exists v; repeat split; intros; congruence|].
        destruct d as [v|]; [exists v; repeat split; intros; congruence|]. exfalso. apply Q; reflexivity. }
      destruct X as (v & -> & V1 & V2). cbn [bind]. rewrite Er. cbn [bind]. exists ((m, v) :: r). split; [reflexivity|]. split; [cbn; rewrite Fr; reflexivity|]. split.
      + intros a w [<-|I] L; [left; rewrite (V1 w L); reflexivity|right; apply A; assumption].
      + intros a w [K|I] L; [injection K as -> ->; left; rewrite (V2 w L eq_refl); reflexivity|right; apply B; assumption]. }
  destruct M as (l & -> & Fl & A & B). cbn [bind]. eexists. split; [reflexivity|]. cbn [class_of attributes]. repeat split.
  - intros a v I J. apply A; [apply S, I|]. rewrite G by exact I. apply lookup_in; assumption.
  - intros a d N I. apply B; [exact I|]. apply lookup_none. rewrite Fk. exact N.
  - exact Fl.
Qed.

(** C93. Refuted: the copy raises TypeError when one of these has no default value. *)
Theorem C93_required_refuted history o1 (o : obj) a :
  let n := full_classname value (class_of value o) in
  built value o -> first_named value n history o1 -> (forall a, In a (names value o1) -> In a (names value o)) ->
  In (a, None) (arguments value (class_of value o)) -> ~ In a (names value o1) ->
  fst (copy (after history) o) = Err TypeError.
Proof.
  intros n [E ND] F S I N. rewrite (copy_hit value _ _ (names value o1)) by (apply after_first, F). unfold copy_with.
  destruct (read_ok value (attributes value o) (names value o1)) as (kw & -> & Fk & G); [intros b J; rewrite E; apply S, J|]. cbn [bind]. unfold construct.
  rewrite known by (rewrite Fk; exact S).
  assert (L : lookup a kw = None) by (apply lookup_none; rewrite Fk; exact N).
  assert (M : mapM (fun nd : string * option value => match lookup (fst nd) kw with
      | Some v => Ok (fst nd, v) | None => match snd nd with Some v => Ok (fst nd, v) | None => Err TypeError end end) (arguments value (class_of value o)) = Err TypeError).
  { clear - I L. induction (arguments value (class_of value o)) as [|[m d] l IH]; [destruct I|]. cbn [mapM fst snd]. destruct I as [K|I].
    - injection K as -> ->. rewrite L. reflexivity.
    - rewrite (IH I). destruct (lookup m kw); [reflexivity|]. destruct d; reflexivity. }
  rewrite M. reflexivity.
Qed.

(** C93. Refuted: the copy raises KeyError when the class copied before has an argument that is no attribute of the object,
    and TypeError when it has one that is, but is no argument of its class. *)
Theorem C93_removed_refuted history o1 (o : obj) a :
  let n := full_classname value (class_of value o) in
  first_named value n history o1 -> In a (names value o1) -> ~ In a (map fst (attributes value o)) ->
  fst (copy (after history) o) = Err KeyError.
Proof.
  intros n F I N. rewrite (copy_hit value _ _ (names value o1)) by (apply after_first, F). unfold copy_with.
  rewrite (read_err value _ _ a I N). reflexivity.
Qed.
Theorem C93_unknown_refuted history o1 (o : obj) a :
  let n := full_classname value (class_of value o) in
  first_named value n history o1 -> (forall b, In b (names value o1) -> In b (map fst (attributes value o))) ->
  In a (names value o1) -> ~ In a (names value o) ->
  fst (copy (after history) o) = Err TypeError.
Proof.
  intros n F S I N. rewrite (copy_hit value _ _ (names value o1)) by (apply after_first, F). unfold copy_with.
  destruct (read_ok value (attributes value o) (names value o1) S) as (kw & -> & Fk & _). cbn [bind]. unfold construct.
  destruct (forallb _ kw) eqn:E; [|reflexivity]. exfalso. apply N. rewrite forallb_forall in E. rewrite <- Fk in I.
  apply in_map_iff in I as ([b v] & <- & I). specialize (E _ I). cbn [fst] in *. apply existsb_exists in E as (c & J & K).
  apply String.eqb_eq in K as ->. exact J.
Qed.
End Props.

(** A class defined again with one more argument, or one less *)
Open Scope string_scope.
Definition part (l : list (string * option nat)) : class_ nat := {| full_classname := "models.Part"; arguments := l |}.
Definition old_part : obj nat := {| class_of := part [("width", None)]; attributes := [("width", 3)] |}.
Definition new_part : obj nat := {| class_of := part [("width", None); ("height", Some 1)]; attributes := [("width", 3); ("height", 8)] |}.
Definition other_part : obj nat := {| class_of := part [("radius", None)]; attributes := [("radius", 2)] |}.
Example C93_copy_example : fst (copy nat (after nat [new_part]) new_part) = Ok new_part.
Proof. reflexivity. Qed.
Example C93_lost_example : fst (copy nat (after nat [old_part; new_part]) new_part)
  = Ok {| class_of := class_of nat new_part; attributes := [("width", 3); ("height", 1)] |}.
Proof. reflexivity. Qed.
Example C93_removed_example : fst (copy nat (after nat [old_part]) other_part) = Err KeyError.
Proof. reflexivity. Qed.

Example C93_unknown_example : fst (copy nat (after nat [old_part])
  {| class_of := part [("radius", None)]; attributes := [("radius", 2); ("width", 4)] |}) = Err TypeError.
Proof. reflexivity. Qed.

Print Assumptions C93_copy.
Print Assumptions C93_lost_refuted.
Print Assumptions C93_required_refuted.
Print Assumptions C93_removed_refuted.
Print Assumptions C93_unknown_refuted.

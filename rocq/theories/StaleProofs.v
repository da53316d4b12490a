(** Proofs on the cache of arguments. *)
From Coq Require Import List Bool String.
From Verif Require Import Base BaseProofs StaleModel StaleSpec.
Import ListNotations.

Section Proofs.
Variable value : Type.
Notation obj := (obj value).
Notation class_ := (class_ value).

Lemma lookup_app {A} n (d e : list (string * A)) : lookup n (d ++ e) = match lookup n d with Some x => Some x | None => lookup n e end.
Proof. induction d as [|[m x] d IH]; [reflexivity|]. cbn. destruct (String.eqb n m); [reflexivity|exact IH]. Qed.
Lemma lookup_in {A} n (x : A) d : NoDup (map fst d) -> In (n, x) d -> lookup n d = Some x.
Proof.
  induction d as [|[m y] d IH]; intros ND I; [destruct I|]. cbn in *. inversion ND; subst. destruct I as [E|I].
  - injection E as -> ->. rewrite String.eqb_refl. reflexivity.
  - destruct (String.eqb_spec n m) as [->|]; [|apply IH; assumption]. exfalso. apply H1, in_map_iff. exists (m, x). split; [reflexivity|exact I].
Qed.
Lemma lookup_none {A} n (d : list (string * A)) : ~ In n (map fst d) -> lookup n d = None.
Proof. induction d as [|[m y] d IH]; intros N; [reflexivity|]. cbn in *. destruct (String.eqb_spec n m) as [->|]; [tauto|apply IH; tauto]. Qed.
Lemma lookup_some {A} n (d : list (string * A)) : In n (map fst d) -> exists x, lookup n d = Some x.
Proof.
  induction d as [|[m y] d IH]; intros I; [destruct I|]. cbn in *. destruct (String.eqb_spec n m) as [->|]; [eauto|]. apply IH. destruct I; [congruence|assumption].
Qed.

Lemma snd_copy k o : snd (copy value k o) = snd (class_argspec value k (class_of value o)).
Proof. unfold copy. destruct (class_argspec value k (class_of value o)). reflexivity. Qed.
Lemma step_keep k o n a : lookup n k = Some a -> lookup n (snd (copy value k o)) = Some a.
Proof.
  intros E. rewrite snd_copy. unfold class_argspec. destruct (lookup (full_classname value (class_of value o)) k) as [b|]; cbn [snd]; [exact E|]. rewrite lookup_app, E. reflexivity.
Qed.
Lemma steps_keep l : forall k n a, lookup n k = Some a -> lookup n (fold_left (fun k o => snd (copy value k o)) l k) = Some a.
Proof. induction l as [|o l IH]; intros k n a E; [exact E|]. cbn [fold_left]. apply IH, step_keep, E. Qed.
Lemma step_none k o n : ~ named value n o -> lookup n k = None -> lookup n (snd (copy value k o)) = None.
Proof.
  intros N E. rewrite snd_copy. unfold class_argspec. destruct (lookup (full_classname value (class_of value o)) k) as [b|]; cbn [snd]; [exact E|]. rewrite lookup_app, E. cbn.
  destruct (String.eqb_spec n (full_classname value (class_of value o))) as [->|]; [exfalso; apply N; reflexivity|reflexivity].
Qed.
Lemma steps_none l : forall k n, (forall o, In o l -> ~ named value n o) -> lookup n k = None ->
  lookup n (fold_left (fun k o => snd (copy value k o)) l k) = None.
Proof.
  induction l as [|o l IH]; intros k n N E; [exact E|]. cbn [fold_left]. apply IH; [intros o' I; apply N; right; exact I|].
  apply step_none; [apply N; left; reflexivity|exact E].
Qed.
Lemma after_first n h o1 : first_named value n h o1 -> lookup n (after value h) = Some (names value o1).
Proof.
  intros (b & l & -> & E & N). unfold after. rewrite fold_left_app. cbn [fold_left]. apply steps_keep. rewrite snd_copy. unfold class_argspec.
  red in E. rewrite E. rewrite (steps_none b [] n N eq_refl). cbn [snd]. rewrite lookup_app, (steps_none b [] n N eq_refl). cbn. rewrite String.eqb_refl. reflexivity.
Qed.
Lemma after_none n h : (forall o, In o h -> ~ named value n o) -> lookup n (after value h) = None.
Proof. intros N. apply steps_none; [exact N|reflexivity]. Qed.
Lemma first_or_none n h : (exists o1, first_named value n h o1) \/ (forall o, In o h -> ~ named value n o).
Proof.
  induction h as [|o h IH]; [right; intros o []|]. destruct (string_dec (full_classname value (class_of value o)) n) as [E|N].
  - left. exists o, [], h. repeat split; [exact E|intros o' []].
  - destruct IH as [(o1 & b & l & -> & E & H)|H].
    + left. exists o1, (o :: b), l. split; [reflexivity|]. split; [exact E|]. intros o' [<-|I]; [exact N|apply H, I].
    + right. intros o' [<-|I]; [exact N|apply H, I].
Qed.

(** the result of a copy with given names of arguments *)
Definition copy_with (args : list string) (o : obj) : res obj :=
  let* dict_ := mapM (fun arg => let* v := of_option KeyError (lookup arg (attributes value o)) in Ok (arg, v)) args in
  construct value (class_of value o) dict_.
Lemma copy_hit k o a : lookup (full_classname value (class_of value o)) k = Some a -> fst (copy value k o) = copy_with a o.
Proof. intros E. unfold copy, class_argspec. rewrite E. reflexivity. Qed.
Lemma copy_miss k o : lookup (full_classname value (class_of value o)) k = None -> fst (copy value k o) = copy_with (names value o) o.
Proof. intros E. unfold copy, class_argspec. rewrite E. reflexivity. Qed.

(** the values read for names of arguments, all of them attributes *)
Lemma read_ok (d : list (string * value)) args : (forall a, In a args -> In a (map fst d)) ->
  exists kw, mapM (fun arg => let* v := of_option KeyError (lookup arg d) in Ok (arg, v)) args = Ok kw /\ map fst kw = args /\
    (forall a, In a args -> lookup a kw = lookup a d).
Proof.
  induction args as [|a args IH]; intros H.
  - exists []. repeat split. intros a [].
  - destruct (lookup_some a d (H a (or_introl eq_refl))) as [x E]. destruct IH as (kw & Ek & F & G); [intros b I; apply H; right; exact I|].
    exists ((a, x) :: kw). cbn [mapM]. rewrite E. cbn [of_option bind]. rewrite Ek. cbn. rewrite F. repeat split. intros b I.
    destruct (String.eqb_spec b a) as [->|N]; [symmetry; exact E|]. apply G. destruct I; [congruence|assumption].
Qed.
Lemma read_err (d : list (string * value)) args a : In a args -> ~ In a (map fst d) ->
  mapM (fun arg => let* v := of_option KeyError (lookup arg d) in Ok (arg, v)) args = Err KeyError.
Proof.
  induction args as [|b args IH]; intros I N; [destruct I|]. cbn [mapM]. destruct (lookup b d) as [x|] eqn:E; [|reflexivity]. cbn [of_option bind].
  destruct I as [->|I]; [rewrite lookup_none in E by exact N; discriminate|]. rewrite (IH I N). reflexivity.
Qed.
Lemma known (c : class_) kw : (forall a, In a (map fst kw) -> In a (map fst (arguments value c))) ->
  forallb (fun nv : string * value => existsb (String.eqb (fst nv)) (map fst (arguments value c))) kw = true.
Proof.
  intros H. apply forallb_forall. intros [n v] I. apply existsb_exists. exists n. split; [apply H, in_map_iff; exists (n, v); split; [reflexivity|exact I]|].
  apply String.eqb_refl.
Qed.
End Proofs.

(** C75: displays offered at the steps of a workflow. *)
From Coq Require Import List String Bool Arith Lia.
From Verif Require Import Base OfferedModel OfferedSpec OfferedProofs.
Import ListNotations.
Local Open Scope list_scope.

Section C75.
Context {D L : Type}.
Variables variables inputs : list nat.
Variable outputs : list (shown D L).
Variable steps : list (list nat).
Hypothesis distinct : NoDup (map variable outputs).
Hypothesis known : forall o, In o outputs -> In (variable o) variables.

Local Lemma nth_rev {A} (l : list A) i x : nth_error (rev l) i = Some x -> i < List.length l /\ nth_error l (List.length l - S i) = Some x.
Proof.
  intros E. apply nth_error_split in E. destruct E as (a & b & E & <-). assert (El : l = (rev b ++ [x]) ++ rev a) by (rewrite <- (rev_involutive l), E, rev_app_distr; reflexivity). subst l.
  rewrite !app_length, !rev_length. cbn [List.length]. split; [lia|]. rewrite nth_error_app1; [|rewrite app_length, rev_length; cbn; lia]. rewrite nth_error_app2; rewrite rev_length; [|lia].
  match goal with |- nth_error _ ?k = _ => replace k with 0 by lia end. reflexivity.
Qed.
(** Each step offers, in the order of the workflow, the displays of the outputs that need no input of a later step,
    under the index of their variable; the labels are those of all outputs as soon as there is a step. *)
Theorem C75_offered r : displayable_display_settings variables inputs outputs steps = Ok r ->
  List.length (fst r) = List.length steps /\
  (forall i step, nth_error (fst r) i = Some step -> exists os, kept (ready steps i) outputs os /\
     Forall2 (fun o item => position variables (variable o) (fst item) /\ snd item = settings o) os step) /\
  (steps <> [] -> Forall2 (fun o item => position variables (variable o) (fst item) /\ snd item = label o) outputs (snd r)) /\ (steps = [] -> snd r = []).
Proof.
  unfold displayable_display_settings. match goal with |- context [mapM ?f outputs] => destruct (mapM f outputs) as [ds|e] eqn:Ds end; cbn [bind]; [|discriminate]. destruct (ds_in _ _ _ Ds) as [Ef Ei].
  assert (H : forall o i, In (o, i) ds -> In (variable o) variables /\ mapM (index inputs) (upstream o) = Ok i). { intros o i I. split; [|auto]. apply known. rewrite <- Ef. apply (in_map fst) in I. exact I. }
  destruct (existsb (fun s => existsb (fun v => negb (memb Nat.eqb v inputs)) s) (rev steps)) eqn:Bad.
  { apply existsb_exists in Bad. destruct Bad as (s & S & B). apply existsb_exists in B. destruct B as (v & V & N). apply negb_true_iff in N. rewrite (offers_err variables inputs ds (fun o i I => proj1 (H o i I)) (rev steps) [] [] [] s v S V); [discriminate|]. intros I.
    assert (T : memb Nat.eqb v inputs = true) by (apply existsb_exists; exists v; split; [exact I|apply Nat.eqb_refl]). congruence. }
  assert (St : forall s v, In s (rev steps) -> In v s -> In v inputs).
  { intros s v S V. destruct (memb Nat.eqb v inputs) eqn:M; [apply existsb_exists in M; destruct M as (u & U & Eq); apply Nat.eqb_eq in Eq; subst; exact U|]. exfalso. assert (T : existsb (fun s => existsb (fun v => negb (memb Nat.eqb v inputs)) s) (rev steps) = true); [|congruence]. apply existsb_exists. exists s. split; [exact S|]. apply existsb_exists. exists v. rewrite M. auto. }
  destruct (offers_spec variables inputs ds) with (steps := rev steps) (gone := @nil nat) (missing := @nil nat) (available := @nil (list (nat * list D))) (labels := @nil (nat * L)) as (offered & lb & E & Len & Off & Lb); auto.
  { rewrite Ef. exact distinct. }
  { intros k. split; [intros []|intros (v & [] & _)]. }
  rewrite E. cbn [bind fst snd app]. intros R. injection R as <-. cbn [fst snd]. rewrite rev_length in Len. split; [rewrite rev_length; exact Len|]. split; [|split].
  - intros i step Ei'. apply nth_rev in Ei'. destruct Ei' as [Li Ei']. destruct (Off _ _ Ei') as (os & K & F). exists os. split; [|exact F]. rewrite Ef in K. cbn [app] in K.
    assert (X : forall v, In v (List.concat (firstn (List.length offered - S i) (rev steps))) <-> In v (later steps i)).
    { intros v. unfold later. rewrite !in_concat. rewrite firstn_rev. replace (List.length steps - (List.length offered - S i)) with (S i) by lia. split; intros (x & X & V); exists x; (split; [|exact V]); [rewrite in_rev; exact X|rewrite <- in_rev; exact X]. }
    clear -K X. induction K as [|o l m P K IH|o l m P K IH]; constructor; auto.
    + intros v V G. apply (P v V). apply X. exact G.
    + intros Q. apply P. intros v V G. apply (Q v V). apply X. exact G.
  - intros NE. destruct Lb as [[Z _]|Lb]; [|rewrite Ef in Lb; exact Lb]. exfalso. apply NE. rewrite <- (rev_involutive steps), Z. reflexivity.
  - intros ->. cbn in E. congruence.
Qed.

(** Nothing else is needed than that the inputs are those of the workflow, otherwise ValueError. *)
Theorem C75_failures : match displayable_display_settings variables inputs outputs steps with
  | Ok _ => (forall o v, In o outputs -> In v (upstream o) -> In v inputs) /\ forall s v, In s steps -> In v s -> In v inputs
  | Err e => e = ValueError /\ ((exists o v, In o outputs /\ In v (upstream o) /\ ~ In v inputs) \/ exists s v, In s steps /\ In v s /\ ~ In v inputs)
  end.
Proof.
  unfold displayable_display_settings. match goal with |- context [mapM ?f outputs] => destruct (mapM f outputs) as [ds|e] eqn:Ds end; cbn [bind].
  - destruct (ds_in _ _ _ Ds) as [Ef Ei].
    assert (H : forall o i, In (o, i) ds -> In (variable o) variables /\ mapM (index inputs) (upstream o) = Ok i). { intros o i I. split; [|auto]. apply known. rewrite <- Ef. apply (in_map fst) in I. exact I. }
    assert (U : forall o v, In o outputs -> In v (upstream o) -> In v inputs). { intros o v O V. rewrite <- Ef in O. apply in_map_iff in O. destruct O as ([o' i] & Eo & I). cbn in Eo. subst o'. destruct (indexes_in _ _ _ (Ei o i I)) as [A _]. auto. }
    destruct (existsb (fun s => existsb (fun v => negb (memb Nat.eqb v inputs)) s) (rev steps)) eqn:Bad.
    + apply existsb_exists in Bad. destruct Bad as (s & S & B). apply existsb_exists in B. destruct B as (v & V & N). apply negb_true_iff in N. assert (NI : ~ In v inputs). { intros I. assert (T : memb Nat.eqb v inputs = true) by (apply existsb_exists; exists v; split; [exact I|apply Nat.eqb_refl]). congruence. }
      rewrite (offers_err variables inputs ds (fun o i I => proj1 (H o i I)) (rev steps) [] [] [] s v S V NI). cbn [bind]. split; [reflexivity|]. right. exists s, v. rewrite in_rev. auto.
    + assert (St : forall s v, In s (rev steps) -> In v s -> In v inputs).
      { intros s v S V. destruct (memb Nat.eqb v inputs) eqn:M; [apply existsb_exists in M; destruct M as (u & U' & Eq); apply Nat.eqb_eq in Eq; subst; exact U'|]. exfalso. assert (T : existsb (fun s => existsb (fun v => negb (memb Nat.eqb v inputs)) s) (rev steps) = true); [|congruence]. apply existsb_exists. exists s. split; [exact S|]. apply existsb_exists. exists v. rewrite M. auto. }
      destruct (offers_spec variables inputs ds) with (steps := rev steps) (gone := @nil nat) (missing := @nil nat) (available := @nil (list (nat * list D))) (labels := @nil (nat * L)) as (offered & lb & E & _); auto.
      { rewrite Ef. exact distinct. }
      { intros k. split; [intros []|intros (v & [] & _)]. }
      rewrite E. cbn [bind]. split; [exact U|]. intros s v S V. apply (St s v); [rewrite <- in_rev; exact S|exact V].
  - apply ds_err in Ds. destruct Ds as [A B]. auto.
Qed.
End C75.

(** What is offered at a step is offered at the steps after it, and the last step offers everything. *)
Theorem C75_later {D L} steps i j (o : shown D L) : i <= j -> ready steps i o -> ready steps j o.
Proof.
  intros Le R v V I. apply (R v V). unfold later in *. apply in_concat in I. destruct I as (x & X & Vx). apply in_concat. exists x. split; [|exact Vx]. clear -Le X. replace (S j) with ((j - i) + S i) in X by lia. revert X. generalize (S i), (j - i). clear. intros n m. revert n m. induction steps as [|s steps IH]; intros n m X; [rewrite skipn_nil in X; destruct X|].
  destruct n as [|n]; [rewrite Nat.add_0_r in X; cbn [skipn]; rewrite <- (firstn_skipn m (s :: steps)); apply in_or_app; right; exact X|]. rewrite Nat.add_succ_r in X. cbn [skipn] in *. apply (IH n m X).
Qed.
Theorem C75_last {D L} steps (o : shown D L) : ready steps (List.length steps - 1) o.
Proof. intros v V. unfold later. rewrite skipn_all2 by lia. intros []. Qed.
(** Expected of a display at a step: the inputs it needs are asked for by then.  Inputs of no step are not looked at. *)
Theorem C75_spare_refuted {D L} steps i (o : shown D L) : (forall v s, In v (upstream o) -> In s steps -> ~ In v s) -> ready steps i o.
Proof. intros H v V I. unfold later in I. apply in_concat in I. destruct I as (s & Hs & Vs). apply (H v s V); [|exact Vs]. rewrite <- (firstn_skipn (S i) steps). apply in_or_app. right. exact Hs. Qed.

Example C75_example :
  displayable_display_settings [10; 11; 12; 13; 14; 15; 16] [10; 11; 13]
    [Shown 12 [11; 10] ["cad"; "markdown"]%string "first"%string; Shown 15 [13; 10] ["plot"]%string "second"%string; Shown 16 [] ["cad"]%string "third"%string] [[10]; [11]; [13]]
  = Ok ([[(6, ["cad"])]; [(2, ["cad"; "markdown"]); (6, ["cad"])]; [(2, ["cad"; "markdown"]); (5, ["plot"]); (6, ["cad"])]]%string, [(2, "first"); (5, "second"); (6, "third")]%string).
Proof. reflexivity. Qed.
Example C75_failure_example : displayable_display_settings (L := nat) [10; 11; 12] [10; 11] [Shown 12 [11] [0] 0] [[10]; [12]] = Err ValueError.
Proof. reflexivity. Qed.

Print Assumptions C75_offered.
Print Assumptions C75_failures.
Print Assumptions C75_later.
Print Assumptions C75_last.
Print Assumptions C75_spare_refuted.

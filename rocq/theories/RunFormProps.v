(** C78: the form of the run of a workflow. *)
From Coq Require Import List String Bool Arith DecimalString Permutation Lia.
From Verif Require Import Base RunFormModel RunFormSpec RunFormProofs.
Import ListNotations.
Local Open Scope string_scope.
Local Open Scope list_scope.

Local Lemma nodup_app {A} (l m : list A) : NoDup (l ++ m) -> NoDup l /\ NoDup m.
Proof.
  induction l as [|x l IH]; intros N; [split; [constructor|exact N]|]. cbn [app] in N. inversion N as [|y q Nx N']; subst. destruct (IH N') as [H1 H2]. split; [constructor; [intros I; apply Nx, in_or_app; auto|exact H1]|exact H2].
Qed.

Section C78.
Context {T X C P F R B : Type}.
Variable var : nat -> variable T X.
Variables inputs nonblock detached : list nat.
Variable steps : list (step R).
Variable spare : list nat.
Variable upstream : nat -> nat.
Variable block_of : nat -> res B.
Variable block_name : B -> string.
Variable input_doc : B -> nat -> C.
Variable empty_doc : C.
Variable pretty : string -> string.
Variable get_schema : T -> attribute X C -> res P.
Variable to_dict : P -> res F.
Notation arranged := (arranged inputs nonblock detached steps spare upstream block_of).
Notation property := (property var inputs nonblock detached block_of block_name input_doc empty_doc pretty get_schema to_dict).
Notation step_shown := (step_shown var inputs nonblock detached block_of block_name input_doc empty_doc pretty get_schema to_dict).
Notation method_schemas := (method_schemas var inputs nonblock detached steps spare upstream block_of block_name input_doc empty_doc pretty get_schema to_dict).
Notation build_step := (build_step var inputs nonblock detached upstream block_of block_name input_doc empty_doc pretty get_schema).

Local Lemma structure : arranged -> (forall v, In v spare -> In v inputs) /\ NoDup spare /\ (forall s, In s steps -> NoDup (s_inputs s) /\ forall v, In v (s_inputs s) -> In v inputs).
Proof.
  intros (ND & Pe & _). assert (ND' : NoDup (spare ++ List.concat (map s_inputs steps))) by (eapply Permutation_NoDup; [apply Permutation_sym; exact Pe|exact ND]).
  split; [intros v I; eapply Permutation_in; [exact Pe|apply in_or_app; auto]|]. split; [apply nodup_app, proj1 in ND'; exact ND'|].
  intros s I. assert (H : incl (s_inputs s) (List.concat (map s_inputs steps))) by (intros v Iv; apply in_concat; exists (s_inputs s); split; [apply in_map; auto|auto]). split; [|intros v Iv; eapply Permutation_in; [exact Pe|apply in_or_app; right; apply H; auto]].
  apply nodup_app, proj2 in ND'. clear Pe H. induction steps as [|s' l IH]; [destruct I|]. cbn [map List.concat] in ND'. destruct I as [->|I]; [apply nodup_app, proj1 in ND'; exact ND'|apply nodup_app, proj2 in ND'; auto].
Qed.
(** The form is the one of the steps, in order, and of the spare inputs, in order: the property of an input has its place
    among the inputs as key, a title, its documentation, its default value, and can be edited unless it is locked. *)
Theorem C78_form fs ps : arranged -> (method_schemas = Ok (fs, ps) <-> Forall2 step_shown steps fs /\ Forall2 property spare ps).
Proof. intros A. destruct (structure A) as (S1 & S2 & S3). destruct A as (ND & _ & U). apply method_schemas_iff; auto. Qed.

Local Lemma partition (f : nat -> bool) (l : list nat) : Permutation (filter (fun v => negb (f v)) l ++ filter f l) l.
Proof.
  induction l as [|v l IH]; [constructor|]. cbn [filter]. destruct (f v); cbn [negb app]; [|constructor; exact IH]. apply Permutation_sym, Permutation_cons_app, Permutation_sym, IH.
Qed.
(** All inputs are asked for, once. *)
Theorem C78_once r : arranged -> method_schemas = Ok r -> exists l, Permutation l inputs /\ Forall2 property l (all_properties r).
Proof.
  intros A E. destruct r as [fs ps]. apply (C78_form fs ps A) in E. destruct E as [Fs Fp]. destruct A as (_ & Pe & _).
  assert (H : exists l, Permutation l (List.concat (map s_inputs steps)) /\ Forall2 property l (flat_map (fun f => f_properties f ++ match f_group f with Some g => g_properties g | None => [] end) fs)).
  { clear Pe. induction Fs as [|s f l fl S Fs IH]; [exists []; split; constructor|]. destruct IH as (l' & Pl & Fl). destruct S as (_ & _ & F1 & F2). cbn [map List.concat flat_map]. destruct (f_group f) as [g|] eqn:G.
    - destruct F2 as (_ & F2 & _). exists ((filter (fun v => negb (in_group s v)) (s_inputs s) ++ filter (in_group s) (s_inputs s)) ++ l'). split; [apply Permutation_app; [apply partition|exact Pl]|]. apply Forall2_app; [apply Forall2_app; auto|auto].
    - exists (filter (fun v => negb (in_group s v)) (s_inputs s) ++ l'). split; [apply Permutation_app; [|exact Pl]|rewrite app_nil_r; apply Forall2_app; auto].
      assert (N : filter (in_group s) (s_inputs s) = []). { destruct (filter (in_group s) (s_inputs s)) as [|v q] eqn:Q; [reflexivity|]. assert (I : In v (filter (in_group s) (s_inputs s))) by (rewrite Q; left; auto). apply filter_In in I. destruct I as [I J]. exfalso. apply (F2 v I), memb_nat, J. }
      rewrite <- (partition (in_group s) (s_inputs s)) at 2. rewrite N, app_nil_r. apply Permutation_refl. }
  destruct H as (l & Pl & Fl). exists (spare ++ l). split; [eapply Permutation_trans; [apply Permutation_app_head; exact Pl|exact Pe]|]. apply Forall2_app; auto.
Qed.
(** There is a form exactly when every input has its property. *)
Theorem C78_runs : arranged -> ((exists r, method_schemas = Ok r) <-> forall v, In v inputs -> exists f, property v f).
Proof.
  intros A. split.
  - intros (r & E) v I. destruct (C78_once r A E) as (l & Pl & Fl). apply (Permutation_in v (Permutation_sym Pl)) in I. clear -I Fl. induction Fl as [|w f l fs H Fl IH]; [destruct I|]. destruct I as [->|I]; eauto.
  - intros H. assert (Sh : forall l, (forall v, In v l -> In v inputs) -> exists r, Forall2 property l r).
    { induction l as [|v l IH]; intros Hl; [exists []; constructor|]. destruct (H v (Hl v (or_introl eq_refl))) as (f & Pf). destruct IH as (r & Fr); [intros; apply Hl; right; auto|]. exists (f :: r). constructor; auto. }
    destruct (structure A) as (S1 & _ & S3). destruct (Sh spare S1) as (ps & Fp).
    assert (St : exists fs, Forall2 step_shown steps fs).
    { assert (One : forall s, In s steps -> exists f, step_shown s f).
      { intros s I. destruct (S3 s I) as [_ Sub]. destruct (Sh (filter (fun v => negb (in_group s v)) (s_inputs s))) as (r1 & F1); [intros v J; apply filter_In in J; apply Sub; tauto|]. destruct (Sh (filter (in_group s) (s_inputs s))) as (r2 & F2); [intros v J; apply filter_In in J; apply Sub; tauto|].
        destruct (filter (in_group s) (s_inputs s)) as [|v q] eqn:Q.
        - exists (StepForm F R (s_label s) r1 None (s_rest s)). repeat split; cbn; auto. intros v J K. apply memb_nat in K. assert (L : In v (filter (in_group s) (s_inputs s))) by (apply filter_In; auto). rewrite Q in L. destruct L.
        - exists (StepForm F R (s_label s) r1 (Some (GroupForm F (s_group_id s) (group_name pretty s) r2)) (s_rest s)). unfold RunFormSpec.step_shown. cbn [f_label f_rest f_properties f_group g_properties g_key g_title]. repeat (split; [reflexivity || assumption|]). assert (L : In v (filter (in_group s) (s_inputs s))) by (rewrite Q; left; auto). apply filter_In in L. destruct L as [L K]. split; [exists v; split; [exact L|apply memb_nat; exact K]|]. split; [rewrite Q; exact F2|]. split; [reflexivity|]. unfold group_name. repeat split; try (intros ->; reflexivity). intros t -> Nt. apply String.eqb_neq in Nt. rewrite Nt. reflexivity. }
      clear -One. induction steps as [|s l IH]; [exists []; constructor|]. destruct (One s (or_introl eq_refl)) as (f & Sf). destruct IH as (fs & Ff); [intros; apply One; right; auto|]. exists (f :: fs). constructor; auto. }
    destruct St as (fs & Fs). exists (fs, ps). apply C78_form; auto.
Qed.
(** Expected: a variable that cannot be shown does not hide the others.  One locked input that lost its default value
    leaves the workflow without any form. *)
Theorem C78_lock_refuted v : arranged -> In v inputs -> v_locked (var v) = true -> v_default (var v) = None ->
  input_schema var inputs nonblock detached upstream block_of block_name input_doc empty_doc pretty v = Err ValueError /\ forall r, method_schemas <> Ok r.
Proof.
  intros A I L D. split.
  - destruct A as (_ & _ & U). destruct (U v I) as [_ H]. unfold input_schema, locked. rewrite L, D. destruct (negb (memb Nat.eqb v nonblock) && negb (memb Nat.eqb v detached)) eqn:E; [|reflexivity].
    destruct H as [H|[H|[b H]]]; [apply memb_nat in H; rewrite H in E; discriminate|apply memb_nat in H; rewrite H, andb_false_r in E; discriminate|]. rewrite H. reflexivity.
  - intros r E. destruct (proj1 (C78_runs A) (ex_intro _ r E) v I) as (f & i & t & c & p & _ & _ & _ & H & _). apply (H L D).
Qed.
(** Expected: the steps are not trusted to hold an input once.  With an input twice in the group of a step there is no form. *)
Theorem C78_twice_refuted s v l1 l2 l3 : In s steps -> s_inputs s = l1 ++ v :: l2 ++ v :: l3 -> In v (s_group s) -> forall r, method_schemas <> Ok r.
Proof.
  intros I Es Ig r E.
  assert (B0 : forall b, build_step s <> Ok b).
  { intros b Eb. unfold RunFormModel.build_step in Eb. rewrite Es in Eb. set (l := l1 ++ v :: l2 ++ v :: l3) in *. destruct (mapM (fun v => let* a := _ in Ok (memb Nat.eqb v (s_group s), a)) l) as [al|e] eqn:Al; cbn [bind] in Eb; [|discriminate].
    apply split_made in Al. destruct Al as [_ M2]. remember (map snd (filter fst al)) as la eqn:Hla. clear Hla.
    assert (K : map a_key la = map (address inputs upstream) (filter (fun v => memb Nat.eqb v (s_group s)) l)) by (eapply made_keys; exact M2). clear M2.
    assert (Mv : memb Nat.eqb v (s_group s) = true) by (apply memb_nat; auto). unfold l in K. rewrite filter_app in K. cbn [filter] in K. rewrite Mv, filter_app in K. cbn [filter] in K. rewrite Mv, map_app in K. cbn [map] in K. rewrite map_app in K. cbn [map] in K.
    assert (Po : forall (la : list (attribute X C)) ann k q1 q2 q3, map a_key la = q1 ++ k :: q2 ++ k :: q3 -> forall po, pop_all (T := T) la ann <> Ok po).
    { assert (Gone : forall (la : list (attribute X C)) (ann : list (string * T)) k q2 q3, get k ann = None -> map a_key la = q2 ++ k :: q3 -> forall po, pop_all la ann <> Ok po).
      { intros la0; induction la0 as [|a la0 IH]; intros ann k q2 q3 G Ek po Ep; [destruct q2; discriminate|]. cbn [pop_all] in Ep. unfold pop in Ep. destruct q2 as [|x q2]; cbn [map app] in Ek; injection Ek as Ea Ek.
        - rewrite Ea, G in Ep. discriminate.
        - destruct (get (a_key a) ann) as [t|]; cbn [of_option bind snd] in Ep; [|discriminate]. destruct (pop_all la0 _) as [po'|e] eqn:E' in Ep; [|discriminate]. eapply IH; [|exact Ek|exact E']. rewrite get_filter, G. destruct (String.eqb k (a_key a)); reflexivity. }
      intros la0; induction la0 as [|a la0 IH]; intros ann k q1 q2 q3 Ek po Ep; [destruct q1; discriminate|]. cbn [pop_all] in Ep. unfold pop in Ep. destruct q1 as [|x q1]; cbn [map app] in Ek; injection Ek as Ea Ek; destruct (get (a_key a) ann) as [t|]; cbn [of_option bind snd] in Ep; try discriminate; destruct (pop_all la0 _) as [po'|e] eqn:E' in Ep; try discriminate.
      - eapply Gone; [|exact Ek|exact E']. rewrite get_filter, Ea, String.eqb_refl. reflexivity.
      - eapply IH; [exact Ek|exact E']. }
    destruct la as [|a la]; [destruct (map (address inputs upstream) (filter (fun v => memb Nat.eqb v (s_group s)) l1)); discriminate|]. destruct (pop_all (a :: la) _) as [po|e] eqn:Ep in Eb; [|discriminate]. eapply Po; [exact K|exact Ep]. }
  unfold RunFormModel.method_schemas in E. destruct (mapM _ steps) as [bs|e] eqn:Ms in E; [|discriminate]. clear E. apply mapM_forall2 in Ms. clear -I B0 Ms. induction Ms as [|s' b l bs E Ms IH]; [destruct I|]. destruct I as [->|I]; [|auto]. destruct (build_step s) as [b'|e] eqn:Bs; [apply (B0 b' eq_refl)|discriminate].
Qed.
(** What is not an input of the workflow is named "None" in the form. *)
Theorem C78_foreign v a : ~ In (upstream v) inputs -> input_schema var inputs nonblock detached upstream block_of block_name input_doc empty_doc pretty v = Ok a -> a_key a = "None".
Proof. intros N E. apply input_schema_key in E. rewrite E. unfold address, input_index. rewrite index_none by exact N. reflexivity. Qed.
End C78.

(** Two steps over four inputs: 10 and 11 are inputs of the block "b", 12 is free, 13 has a label. *)
Definition example_var (v : nat) : variable nat nat :=
  match v with
  | 10 => Variable_ nat nat "" "x" 0 None false
  | 11 => Variable_ nat nat "" "y" 1 (Some 5) true
  | 12 => Variable_ nat nat "" "z" 0 None false
  | _ => Variable_ nat nat "Length" "l" 2 None false
  end.
Definition example_steps (g : list nat) : list (step nat) := [Step nat "one" "g1" [12; 10] g (Some (Some "Plot")) 0; Step nat "two" "g2" [] [] None 0].
Definition example_form (l : option nat) g := method_schemas example_var [10; 11; 12; 13] [12] [] (example_steps g) [13; 11] (fun v => v)
  (fun v => Ok "b") (fun b => b) (fun _ _ => tt) tt (fun s => s) (fun t a => if match l with Some x => Nat.eqb x t | None => false end then Err NotImplementedError else Ok (t, a)) (fun p => Ok (a_key (snd p), a_title (snd p), a_editable (snd p))).
Example C78_example : example_form None [10] =
  Ok ([StepForm _ _ "one" [("2", "z", true)] (Some (GroupForm _ "g1" (Some "Plot") [("0", "b - x", true)])) 0; StepForm _ _ "two" [] None 0], [("3", "Length", true); ("1", "b - y", false)]).
Proof. reflexivity. Qed.
Example C78_example_fails : example_form (Some 2) [10] = Err NotImplementedError.
Proof. reflexivity. Qed.
Example C78_example_foreign :
  method_schemas example_var [10] [] [] [Step nat "one" "g1" [11; 13] [] None 0] [10] (fun v => v)
  (fun v => Ok "b") (fun b => b) (fun _ _ => tt) tt (fun s => s) (fun t a => Ok (t, a)) (fun p => Ok (fst p, a_key (snd p), a_title (snd p))) =
  Ok ([StepForm _ _ "one" [(2, "None", "Length"); (2, "None", "Length")] None 0], [(0, "0", "b - x")]).
Proof. reflexivity. Qed.

Print Assumptions C78_form.
Print Assumptions C78_once.
Print Assumptions C78_runs.
Print Assumptions C78_lock_refuted.
Print Assumptions C78_twice_refuted.
Print Assumptions C78_foreign.

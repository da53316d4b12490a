(** Proofs about giving values to inputs. *)
From Coq Require Import List Bool Arith ZArith Lia String.
From Verif Require Import Base BaseProofs ExecModel ExecSpec ExecStruct ExecProofs GivenModel GivenSpec.
Import ListNotations.
Local Open Scope list_scope.
Local Open Scope nat_scope.

Lemma indices_in w bl i : In i (block_inputs_global_indices w bl) <-> exists v, In v (b_in bl) /\ input_index w v = Some i.
Proof.
  unfold block_inputs_global_indices. rewrite in_flat_map. split; intros (v & I & H); exists v; (split; [exact I|]); destruct (input_index w v) as [j|]; cbn in *; try tauto; try congruence.
  - destruct H as [->|[]]. reflexivity.
  - injection H as ->. auto.
Qed.
Section P.
Context {V : Type}.
Variable w : workflow.
Hypothesis WF : well_formed w.
Variable type_ok : nat -> V -> bool.
Notation add_several := (add_several_input_values w type_ok).

Lemma input_not_output v : In v (inputs w) -> is_output w v = false.
Proof.
  intros I. destruct (is_output w v) eqn:E; [|reflexivity]. exfalso. unfold is_output in E. destruct (output w) as [o|] eqn:O; [|discriminate]. apply Nat.eqb_eq in E. subst o.
  destruct (wf_output w WF v O) as (b & B & Vb). apply In_nth_error in B. destruct B as [n B]. eapply input_not_out; eauto.
Qed.
(** One value. *)
Record added (v i : nat) (x : V) (s s' : state V) : Prop := {
  a_iv : s_iv s' = upd (s_iv s) i (Some x);
  a_var : forall u, s_var s' u = true <-> s_var s u = true \/ u = v \/ In (v, u) (pipes w);
  a_pipe : forall p q t, nth_error (pipes w) p = Some (q, t) -> s_pipe s' p = if Nat.eqb q v then Some x else s_pipe s p;
  a_rest : s_blk s' = s_blk s /\ evaluated s' = evaluated s /\ s_out s' = s_out s }.
Lemma pipes_char v (x : V) l : forall s : state V, (forall ip, In ip l -> In ip (variable_output_pipes w v)) ->
  exists s', foldM (fun s ip => activate_pipe w ip x s) l s = Ok s' /\ s_iv s' = s_iv s /\ (s_blk s' = s_blk s /\ evaluated s' = evaluated s /\ s_out s' = s_out s) /\
    (forall u, s_var s' u = true -> s_var s u = true \/ In (v, u) (pipes w)) /\ (forall u, s_var s u = true -> s_var s' u = true) /\
    (forall p q t, nth_error (pipes w) p = Some (q, t) -> s_pipe s' p = s_pipe s p \/ (q = v /\ s_pipe s' p = Some x)).
Proof.
  induction l as [|[p [q t]] l IH]; intros s H; cbn [foldM].
  - exists s. repeat split; auto.
  - assert (Hin := H _ (or_introl eq_refl)). destruct (out_pipes_targets w WF v _ Hin) as (b & B & T). cbn [snd] in T. apply output_pipes_In in Hin. destruct Hin as [N ->].
    unfold activate_pipe at 1. cbn [fst snd]. unfold fuel. rewrite (activate_input_port w WF _ t b x _ B T). cbn [bind].
    destruct (IH (set_var t (set_pipe p x s))) as (s' & E & Iv & R & Va & Vb & P); [intros; apply H; right; auto|]. exists s'. split; [exact E|]. split; [exact Iv|]. split; [exact R|]. split; [|split].
    + intros u U. destruct (Va u U) as [X|X]; [|auto]. cbn in X. apply upd_true in X. destruct X as [->|X]; [right; eapply nth_error_In; eauto|left; exact X].
    + intros u U. apply Vb. cbn. apply upd_true. auto.
    + intros p' q' t' N'. destruct (P p' q' t' N') as [X|X]; [|auto]. rewrite X. cbn. unfold upd. destruct (Nat.eqb_spec p' p) as [->|]; [|auto]. right. rewrite N in N'. injection N' as <- <-. auto.
Qed.
Lemma add_char i v (x : V) (s : state V) : nth_error (inputs w) i = Some v -> type_ok v x = true -> exists s', add_input_value w type_ok i x s = Ok s' /\ added v i x s s'.
Proof.
  intros N T. assert (I := nth_error_In _ _ N). unfold add_input_value. rewrite N. cbn [of_option bind]. unfold activate_input. rewrite T, (proj2 (input_index_some w WF v i I) N).
  destruct (activate_char w WF v x (set_iv i x s)) as (s1 & E1 & A & B & C & D & F & G). rewrite E1. cbn [bind].
  destruct (pipes_char v x (variable_output_pipes w v) s1) as (s2 & E2 & Iv & R & Va & Vb & P); [auto|]. exists s2. split; [exact E2|]. constructor.
  - rewrite Iv, A. reflexivity.
  - intros u. split.
    + intros U. destruct (Va u U) as [X|X]; [|auto]. apply F in X. exact X.
    + intros U. apply Vb. apply F. exact U.
  - intros p q t Np. specialize (G p q t Np). destruct (P p q t Np) as [X|[-> X]]; [rewrite X, G; reflexivity|]. rewrite Nat.eqb_refl. exact X.
  - destruct R as (R1 & R2 & R3). rewrite R1, R2, R3, B, C, D. rewrite (input_not_output v I). auto.
Qed.
Lemma add_err i v (x : V) (s : state V) : nth_error (inputs w) i = Some v -> type_ok v x = false -> add_input_value w type_ok i x s = Err TypeError.
Proof. intros N T. unfold add_input_value. rewrite N. cbn [of_option bind]. unfold activate_input. rewrite T. reflexivity. Qed.

Lemma input_once i j v : nth_error (inputs w) i = Some v -> nth_error (inputs w) j = Some v -> i = j.
Proof. intros A B. apply (proj1 (NoDup_nth_error (inputs w)) (inputs_nodup w WF)); [apply nth_error_Some|]; congruence. Qed.
Lemma gets_added values v i x s s' : nth_error (inputs w) i = Some v -> gets w values s i x -> added v i x s s' -> forall j y, gets w values s' j y <-> gets w values s j y.
Proof.
  intros N Gx A j y. unfold gets. split; intros (u & Nu & H); exists u; (split; [exact Nu|]).
  - destruct H as [H|(H1 & H2 & H3)]; [auto|]. right. split; [exact H1|]. rewrite (a_iv _ _ _ _ _ A) in H3. unfold upd in H3. destruct (Nat.eqb_spec j i) as [->|NE].
    + rewrite N in Nu. injection Nu as <-. injection H3 as <-. destruct Gx as (v' & N' & [X|(X1 & X2 & X3)]); [congruence|]. rewrite N in N'. injection N' as <-. auto.
    + split; [|exact H3]. apply (a_var _ _ _ _ _ A) in H2. destruct H2 as [H2|[->|H2]]; [auto|exfalso; apply NE; eapply input_once; eauto|].
      exfalso. apply (input_not_target w WF u (nth_error_In _ _ Nu)). apply (in_map snd) in H2. exact H2.
  - destruct H as [H|(H1 & H2 & H3)]; [auto|]. right. split; [exact H1|]. split; [apply (a_var _ _ _ _ _ A); auto|]. rewrite (a_iv _ _ _ _ _ A). unfold upd. destruct (Nat.eqb_spec j i) as [->|NE]; [|exact H3].
    destruct Gx as (v' & N' & [X|(X1 & X2 & X3)]); congruence.
Qed.
Lemma gets_fun (values : nat -> option V) s i x y : gets w values s i x -> gets w values s i y -> x = y.
Proof. intros (v & N & H) (v' & N' & H'). destruct H as [H|(H1 & H2 & H3)], H' as [H'|(H1' & H2' & H3')]; congruence. Qed.
Lemma given_step values v i x l s s1 s' : nth_error (inputs w) i = Some v -> gets w values s i x -> added v i x s s1 -> given w values l s1 s' -> given w values (i :: l) s s'.
Proof.
  intros N Gx A Gv. assert (GA := gets_added values v i x s s1 N Gx A).
  assert (Iv : exists y, gets w values s i y /\ s_iv s' i = Some y).
  { destruct (in_dec Nat.eq_dec i l) as [J|J].
    - destruct (given_in _ _ _ _ _ Gv i J) as (y & Y & E). exists y. split; [apply GA; exact Y|exact E].
    - exists x. split; [exact Gx|]. rewrite (given_out _ _ _ _ _ Gv i J), (a_iv _ _ _ _ _ A). apply upd_same. }
  constructor.
  - intros j [<-|J]; [exact Iv|]. destruct (given_in _ _ _ _ _ Gv j J) as (y & Y & E). exists y. split; [apply GA; exact Y|exact E].
  - intros j NJ. rewrite (given_out _ _ _ _ _ Gv j) by (intros J; apply NJ; right; auto). rewrite (a_iv _ _ _ _ _ A). apply upd_other. intros ->. apply NJ. left. auto.
  - intros u. rewrite (given_variables _ _ _ _ _ Gv u), (a_var _ _ _ _ _ A u). split.
    + intros [[H|[->|H]]|(j & v' & J & N' & T)]; [auto|right; exists i, v|right; exists i, v|right; exists j, v']; unfold takes; (split; [cbn; auto|split; [auto|]]); auto.
    + intros [H|(j & v' & [<-|J] & N' & T)]; [auto| |right; eauto]. rewrite N in N'. injection N' as <-. left. destruct T as [->|T]; auto.
  - intros p q t Np. destruct (given_pipes _ _ _ _ _ Gv p q t Np) as [P1 P2]. assert (AP := a_pipe _ _ _ _ _ A p q t Np). split.
    + intros j [<-|J] Nq; [|apply P1; auto]. rewrite N in Nq. injection Nq as <-. destruct (in_dec Nat.eq_dec i l) as [J|J]; [apply P1; auto|].
      rewrite P2, AP, Nat.eqb_refl; [|intros j Hj Nj; apply J; rewrite (input_once i j v N Nj); exact Hj]. rewrite (given_out _ _ _ _ _ Gv i J), (a_iv _ _ _ _ _ A), upd_same. reflexivity.
    + intros H. rewrite P2 by (intros j J; apply H; right; auto). rewrite AP. destruct (Nat.eqb_spec q v) as [->|]; [|reflexivity]. exfalso. apply (H i); [left; auto|exact N].
  - destruct (given_rest _ _ _ _ _ Gv) as (A1 & A2 & A3), (a_rest _ _ _ _ _ A) as (B1 & B2 & B3). repeat split; congruence.
Qed.
Lemma given_nil (values : nat -> option V) s : given w values [] s s.
Proof.
  constructor; try (intros; tauto); try (repeat split; reflexivity).
  - intros i [].
  - intros u. split; [auto|]. intros [H|(i & v & [] & _)]; auto.
  - intros p q t N. split; [intros i []|auto].
Qed.

(** Success and failure of a list of inputs. *)
Lemma several values l : forall s, match add_several values l s with
  | (s', None) => given w values l s s' /\ forall i v x, In i l -> nth_error (inputs w) i = Some v -> gets w values s i x -> type_ok v x = true
  | (s', Some e) => exists l1 i l2, l = l1 ++ i :: l2 /\ add_several values l1 s = (s', None) /\ given w values l1 s s' /\
      ((e = IndexError /\ nth_error (inputs w) i = None) \/
       exists v, nth_error (inputs w) i = Some v /\ ((e = ValueError /\ forall x, ~ gets w values s i x) \/ (e = TypeError /\ exists x, gets w values s i x /\ type_ok v x = false)))
  end.
Proof.
  induction l as [|i l IH]; intros s; cbn [add_several_input_values].
  - split; [apply given_nil|intros i v x []].
  - destruct (nth_error (inputs w) i) as [v|] eqn:N.
    2:{ exists [], i, l. split; [reflexivity|]. split; [reflexivity|]. split; [apply given_nil|]. left. auto. }
    match goal with |- context [match ?Y with Some value => _ | None => (s, Some ValueError) end] => destruct Y as [x|] eqn:X end.
    2:{ exists [], i, l. split; [reflexivity|]. split; [reflexivity|]. split; [apply given_nil|]. right. exists v. split; [exact N|]. left. split; [reflexivity|]. intros x (v' & N' & H). rewrite N in N'. injection N' as <-. destruct (values i) eqn:Vi; [discriminate|]. destruct H as [H|(_ & H2 & H3)]; [discriminate|]. rewrite H2, H3 in X. discriminate. }
    assert (Gx : gets w values s i x). { exists v. split; [exact N|]. destruct (values i) eqn:Vi; [left; congruence|]. destruct (s_var s v) eqn:Sv; [|discriminate]. right. auto. }
    destruct (type_ok v x) eqn:T.
    + destruct (add_char i v x s N T) as (s1 & E & A). rewrite E. specialize (IH s1). assert (GA := gets_added values v i x s s1 N Gx A). destruct (add_several values l s1) as [s' [e|]] eqn:R.
      * destruct IH as (l1 & j & l2 & -> & R1 & Gv & H). exists (i :: l1), j, l2. split; [reflexivity|]. split; [cbn [add_several_input_values]; rewrite N, X, E; exact R1|]. split; [eapply given_step; eauto|].
        destruct H as [H|(u & Nu & H)]; [left; exact H|]. right. exists u. split; [exact Nu|]. destruct H as [[-> H]|[-> (y & Gy & Ty)]]; [left|right]; (split; [reflexivity|]); [intros y Gy; apply (H y), GA, Gy|exists y; split; [apply GA; exact Gy|exact Ty]].
      * destruct IH as [Gv Ty]. split; [eapply given_step; eauto|]. intros j u y [<-|J] Nu Gy; [|apply (Ty j u y J Nu), GA, Gy]. rewrite N in Nu. injection Nu as <-. rewrite <- (gets_fun values s i x y Gx Gy). exact T.
    + rewrite (add_err i v x s N T). exists [], i, l. split; [reflexivity|]. split; [reflexivity|]. split; [apply given_nil|]. right. exists v. split; [exact N|]. right. split; [reflexivity|]. exists x. auto.
Qed.
Lemma index_takes v i : input_index w v = Some i -> exists u, nth_error (inputs w) i = Some u /\ takes w v u /\ u = get_upstream_nbv w v.
Proof.
  unfold input_index. intros E. exists (get_upstream_nbv w v). split.
  - revert E. generalize (get_upstream_nbv w v). intros u. revert i. induction (inputs w) as [|y l IH]; intros i; cbn [index_of]; [discriminate|]. destruct (Nat.eqb_spec u y) as [->|]; [intros E; injection E as <-; reflexivity|]. destruct (index_of Nat.eqb u l) as [k|]; cbn [option_map]; [|discriminate]. intros E. injection E as <-. cbn. auto.
  - split; [|reflexivity]. unfold takes, get_upstream_nbv. destruct (nonblock_variables w); [auto|]. destruct (upstream_variable w v) as [u|] eqn:U; [|auto]. destruct (mem u _); [|auto]. right. apply (upstream_variable_some w WF). exact U.
Qed.
End P.

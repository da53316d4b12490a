(** runtime_blocks computes exactly the blocks the output depends on. *)
From Coq Require Import List Bool Arith Lia Permutation.
From Verif Require Import Base BaseProofs ExecModel ExecSpec ExecStruct.
Import ListNotations.

Section R.
Context {V : Type}.
Variable w : workflow.
Hypothesis WF : well_formed w.
Variable default : nat -> option V.
Variable lock_flag : nat -> bool.
Hypothesis LS : locks_sound default lock_flag.
Variable set_order : nat -> list nat -> list nat.
Hypothesis SO : forall b l, Permutation (set_order b l) l.

Notation locked := (locked default lock_flag).
Notation wired := (wired w default lock_flag).
Notation upstream_blocks := (upstream_blocks w default lock_flag set_order).
Notation levels := (levels w default lock_flag set_order).
Notation runtime_blocks := (runtime_blocks w default lock_flag set_order).

Lemma locked_ok v : locked v = Ok (lock_flag v).
Proof.
  unfold ExecModel.locked. destruct (lock_flag v) eqn:L; auto.
  destruct (default v) eqn:D; auto. exfalso. apply (LS v L D).
Qed.

Lemma wired_ok ins : exists us, wired ins = Ok us /\
  forall u, In u us <-> exists v, In v ins /\ In (u, v) (pipes w) /\ In u (block_variables w).
Proof.
  induction ins as [|v ins [us [E C]]]; simpl.
  - exists []. split; auto. intros u. simpl. split; [tauto|]. intros [v [[] _]].
  - destruct (upstream_variable w v) as [u|] eqn:U.
    + apply (upstream_variable_some w WF) in U.
      destruct (mem u (nonblock_variables w)) eqn:M.
      * rewrite locked_ok. simpl. exists us. split; auto. intros x. rewrite C.
        apply mem_In in M. apply (nbv_In w WF) in M. destruct M as [_ M].
        split; intros [v' [I [P B]]].
        -- exists v'; auto.
        -- destruct I as [<-|I]; [|exists v'; auto].
           exfalso. apply M.
           assert (x = u). { apply (upstream_variable_some w WF) in U, P. congruence. } congruence.
      * rewrite E. simpl. exists (u :: us). split; auto. intros x. simpl. rewrite C.
        apply mem_false in M. split.
        -- intros [<-|[v' [I [P B]]]]; [|exists v'; auto].
           exists v. split; auto. split; auto.
           destruct (in_dec Nat.eq_dec u (block_variables w)); auto. exfalso. apply M.
           apply (nbv_In w WF). split; auto. apply in_map_iff. exists (u, v); auto.
        -- intros [v' [[<-|I] [P B]]]; [|right; exists v'; auto].
           left. apply (upstream_variable_some w WF) in U, P. congruence.
    + rewrite locked_ok. simpl. exists us. split; auto. intros x. rewrite C.
      apply (upstream_variable_none w WF) in U.
      split; intros [v' [I [P B]]].
      * exists v'; auto.
      * destruct I as [<-|I]; [|exists v'; auto].
        exfalso. apply U. apply in_map_iff. exists (x, v); auto.
Qed.

Lemma source_is_output u v b :
  In (u, v) (pipes w) -> In u (block_variables w) ->
  In b (blocks w) -> In u (b_in b ++ b_out b) -> In u (b_out b).
Proof.
  intros P B I J. apply in_app_or in J. destruct J as [J|J]; auto.
  exfalso. eapply wf_source; eauto.
Qed.

Lemma upstream_blocks_ok n b :
  nth_error (blocks w) n = Some b ->
  exists us, upstream_blocks n = Ok us /\ NoDup us /\ forall m, In m us <-> feeds w m n.
Proof.
  intros N. unfold ExecModel.upstream_blocks. rewrite N.
  destruct (wired_ok (b_in b)) as [us [E C]]. rewrite E. simpl.
  assert (M : exists bs, mapM (block_from_variable w) us = Ok bs /\
     forall m, In m bs <-> exists u bm, In u us /\ nth_error (blocks w) m = Some bm /\ In u (b_out bm)).
  { assert (G : forall u, In u us -> exists m bm, nth_error (blocks w) m = Some bm /\ In u (b_out bm)).
    { intros u I. apply C in I. destruct I as [v [I [P B]]].
      assert (B' := B). apply in_block_variables in B'. destruct B' as [bm [Im J]].
      assert (J' : In u (b_out bm)) by (eapply source_is_output; eauto; apply in_or_app; auto).
      apply In_nth_error in Im. destruct Im as [m Im]. eauto. }
    clear E C. induction us as [|u us IH]; simpl.
    - exists []. split; auto. simpl. intros m. split; [tauto|]. intros [u [bm [[] _]]].
    - destruct IH as [bs [Eb Cb]]; [intros; apply G; simpl; auto|].
      destruct (G u) as [m [bm [Nm Im]]]; simpl; auto.
      rewrite (block_from_output w WF m bm u Nm Im), Eb. simpl. exists (m :: bs). split; auto.
      intros k. simpl. rewrite Cb. split.
      + intros [<-|[u' [b' H]]]; [exists u, bm; auto|exists u', b'; tauto].
      + intros [u' [b' [[<-|I] [Nk Ik]]]]; [|right; exists u', b'; auto].
        left. eapply ports_nth with (v := u); eauto; apply in_or_app; auto. }
  destruct M as [bs [Eb Cb]]. rewrite Eb. simpl.
  eexists. split; [reflexivity|]. split.
  - eapply Permutation_NoDup; [symmetry; apply SO|]. apply (dedup_NoDup _ nat_eqb_iff).
  - intros m. assert (Q : In m (set_order n (dedup Nat.eqb [] bs)) <-> In m bs).
    { split; intros I.
      - apply (Permutation_in _ (SO n _)) in I. apply (dedup_In _ nat_eqb_iff) in I. tauto.
      - apply (Permutation_in _ (Permutation_sym (SO n _))). apply (dedup_In _ nat_eqb_iff). auto. }
    rewrite Q, Cb. unfold feeds. split.
    + intros [u [bm [I [Nm Im]]]]. apply C in I. destruct I as [v [I [P _]]].
      exists bm, b, u, v. auto.
    + intros [bm [bn [u [v [Nm [Nn [Iu [Iv P]]]]]]]]. rewrite N in Nn; inversion Nn; subst bn.
      exists u, bm. split; auto. apply C. exists v. split; auto. split; auto.
      apply in_block_variables. exists bm. split; [eapply nth_error_In; eauto|auto].
Qed.

Inductive walk : nat -> nat -> nat -> Prop :=
| walk0 : forall x, walk 0 x x
| walkS : forall k x y z, walk k x y -> feeds w y z -> walk (S k) x z.

Lemma feeds_valid m n : feeds w m n -> m < length (blocks w) /\ n < length (blocks w).
Proof.
  intros [bm [bn [s [t [Nm [Nn _]]]]]]. split; apply nth_error_Some; congruence.
Qed.

Lemma fold_add_In l : forall acc x,
  In x (fold_left (fun a c => if memb Nat.eqb c a then a else a ++ [c]) l acc) <-> In x acc \/ In x l.
Proof.
  induction l as [|c l IH]; intros acc x; simpl; [tauto|]. rewrite IH.
  destruct (memb Nat.eqb c acc) eqn:M.
  - apply (memb_In _ nat_eqb_iff) in M. intuition (subst; auto).
  - rewrite in_app_iff. simpl. tauto.
Qed.

Lemma upstream_all ups :
  (forall u, In u ups -> u < length (blocks w)) ->
  exists ns, mapM upstream_blocks ups = Ok ns /\
    forall m, In m (concat ns) <-> exists u, In u ups /\ feeds w m u.
Proof.
  induction ups as [|u ups IH]; intros H; simpl.
  - exists []. split; auto. simpl. intros m; split; [tauto|]. intros [u [[] _]].
  - destruct IH as [ns [E C]]; [intros; apply H; simpl; auto|].
    destruct (nth_error (blocks w) u) as [b|] eqn:N;
      [|apply nth_error_None in N; specialize (H u (or_introl eq_refl)); lia].
    destruct (upstream_blocks_ok u b N) as [us [Eu [_ Cu]]]. rewrite Eu, E. simpl.
    exists (us :: ns). split; auto. intros m. simpl. rewrite in_app_iff, C, Cu. split.
    + intros [F|[u' [I F]]]; [exists u; auto|exists u'; auto].
    + intros [u' [[<-|I] F]]; eauto.
Qed.

Lemma walk_cons k x y z : feeds w x y -> walk k y z -> walk (S k) x z.
Proof.
  intros F W. revert x F. induction W; intros x0 F.
  - econstructor; [constructor|exact F].
  - econstructor; [apply IHW; auto|auto].
Qed.

Lemma levels_ok n : forall ups acc,
  (forall u, In u ups -> u < length (blocks w)) ->
  exists r, levels n ups acc = Ok r /\
    forall x, In x r <-> In x acc \/ exists k u, 1 <= k <= n /\ In u ups /\ walk k x u.
Proof.
  induction n as [|n IH]; intros ups acc H.
  - exists acc. split; [destruct ups; reflexivity|]. intros x. split; auto.
    intros [I|[k [u [L _]]]]; auto; lia.
  - destruct ups as [|u0 ups0].
    + exists acc. split; auto. intros x. split; auto. intros [I|[k [u [_ [[] _]]]]]; auto.
    + remember (u0 :: ups0) as ups.
      destruct (upstream_all ups H) as [ns [E C]].
      assert (V' : forall u, In u (concat ns) -> u < length (blocks w)).
      { intros u I. apply C in I. destruct I as [z [_ F]]. apply feeds_valid in F. tauto. }
      destruct (IH (concat ns)
        (fold_left (fun a c => if memb Nat.eqb c a then a else a ++ [c]) (concat ns) acc) V') as [r [R CR]].
      exists r. split.
      * subst ups. simpl in *. rewrite E. simpl. exact R.
      * intros x. rewrite CR, fold_add_In, C. split.
        -- intros [[I|[u [I F]]]|[k [u [L [I W]]]]]; auto.
           ++ right. exists 1, u. split; [lia|]. split; auto. econstructor; [constructor|auto].
           ++ apply C in I. destruct I as [z [I F]]. right. exists (S k), z.
              split; [lia|]. split; auto. econstructor; eauto.
        -- intros [I|[k [u [L [I W]]]]]; auto.
           destruct k as [|k]; [lia|]. inversion W as [|k' x' y z W' F]; subst.
           destruct k as [|k].
           ++ inversion W'; subst. left. right. exists u; auto.
           ++ right. exists (S k), y. split; [lia|]. split; auto. apply C. exists u; auto.
Qed.

(** Duplicate-free chains of blocks. *)
Inductive chain : list nat -> nat -> Prop :=
| chain1 : forall x, chain [x] x
| chainS : forall x y l z, feeds w x y -> chain (y :: l) z -> chain (x :: y :: l) z.

Lemma chain_walk l z : chain l z -> forall x, hd_error l = Some x -> walk (length l - 1) x z.
Proof.
  induction 1 as [x|x y l z F C IH]; intros x0 E; simpl in E; inversion E; subst.
  - constructor.
  - simpl. specialize (IH y eq_refl). simpl in IH. rewrite Nat.sub_0_r in IH.
    apply walk_cons with y; auto.
Qed.

Lemma chain_suffix l z m : chain l z -> NoDup l -> In m l ->
  exists l', chain (m :: l') z /\ NoDup (m :: l').
Proof.
  induction 1 as [x|x y l z F C IH]; intros ND I.
  - destruct I as [<-|[]]. exists []. split; auto. constructor.
  - destruct I as [<-|I].
    + exists (y :: l). split; auto. constructor; auto.
    + apply IH; auto. inversion ND; auto.
Qed.

Lemma needed_chain o ob bo x :
  output w = Some o -> nth_error (blocks w) ob = Some bo -> In o (b_out bo) ->
  needed w x -> exists l, chain (x :: l) ob /\ NoDup (x :: l).
Proof.
  intros O N I H. induction H as [o' n b O' Nn In'|m n F Hn [l [C ND]]].
  - rewrite O in O'; inversion O'; subst o'.
    assert (n = ob) by (eapply ports_nth with (v := o); eauto; apply in_or_app; auto). subst.
    exists []. split; constructor; simpl; auto. constructor.
  - destruct (in_dec Nat.eq_dec m (n :: l)) as [J|J].
    + eapply chain_suffix; eauto.
    + exists (n :: l). split; constructor; auto.
Qed.

Lemma chain_valid l z : chain l z -> z < length (blocks w) -> forall x, In x l -> x < length (blocks w).
Proof.
  induction 1 as [x|x y l z F C IH]; intros L u I.
  - destruct I as [<-|[]]; auto.
  - destruct I as [<-|I]; auto. apply feeds_valid in F; tauto.
Qed.

Lemma walk_needed k x z : walk k x z -> needed w z -> needed w x.
Proof. induction 1; auto. intros Hz. apply IHwalk. econstructor 2; eauto. Qed.

Lemma runtime_blocks_ok o :
  output w = Some o ->
  exists rt, runtime_blocks = Ok rt /\ forall x, In x rt <-> needed w x.
Proof.
  intros O. unfold ExecModel.runtime_blocks. rewrite O.
  destruct (wf_output w WF o O) as [bo [Ib Io]]. apply In_nth_error in Ib. destruct Ib as [ob N].
  rewrite (block_from_output w WF ob bo o N Io). simpl bind.
  destruct (upstream_blocks_ok ob bo N) as [us [Eu [_ Cu]]]. rewrite Eu. simpl bind.
  destruct (levels_ok (S (length (blocks w))) us (ob :: us)) as [r [R C]].
  { intros u I. apply Cu in I. apply feeds_valid in I. tauto. }
  exists r. split; auto. intros x. rewrite C.
  assert (Nob : needed w ob) by (econstructor; eauto).
  split.
  - intros [[<-|I]|[k [u [_ [I W]]]]]; auto.
    + apply Cu in I. econstructor 2; eauto.
    + apply Cu in I. eapply walk_needed; eauto. econstructor 2; eauto.
  - intros H. destruct (needed_chain o ob bo x O N Io H) as [l [Ch ND]].
    assert (Len : length (x :: l) <= length (blocks w)).
    { rewrite <- (seq_length (length (blocks w)) 0). apply NoDup_incl_length; auto.
      intros y Iy. apply in_seq. split; [lia|]. simpl.
      eapply chain_valid; eauto. apply nth_error_Some; congruence. }
    pose proof (chain_walk _ _ Ch x eq_refl) as W. simpl in W, Len. rewrite Nat.sub_0_r in W.
    destruct (length l) as [|k]; [inversion W; subst; left; simpl; auto|].
    inversion W as [|k' x' y z W' F]; subst. assert (F' := F). apply Cu in F'.
    destruct k as [|k].
    + inversion W'; subst. left; simpl; auto.
    + right. exists (S k), y. split; [lia|]. auto.
Qed.

End R.

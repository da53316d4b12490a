(** One-shot runs and interactive sessions. *)
From Coq Require Import Bool Arith Lia Permutation List.
From Verif Require Import Base BaseProofs ExecModel ExecSpec ExecStruct ExecRuntime ExecProofs.
Import ListNotations.

Section R.
Context {V : Type}.
Variable w : workflow.
Hypothesis WF : well_formed w.
Variable default : nat -> option V.
Variable lock_flag : nat -> bool.
Hypothesis LS : locks_sound default lock_flag.

Notation input_values := (input_values w default lock_flag).
Notation given_by := (given_by w default lock_flag).

Definition allowed (user : list (nat * V)) : res (list (bool * (nat * V))) :=
  mapM (fun ix => let* v := of_option IndexError (nth_error (inputs w) (fst ix)) in
                  let* l := locked default lock_flag v in Ok (l, ix)) user.

Lemma allowed_ok user :
  match allowed user with
  | Ok l => Forall2 (fun (lix : bool * (nat * V)) ix => snd lix = ix /\
              exists v, nth_error (inputs w) (fst ix) = Some v /\ fst lix = lock_flag v) l user
  | Err e => e = IndexError /\ exists i x, In (i, x) user /\ length (inputs w) <= i
  end.
Proof.
  unfold allowed. induction user as [|[i x] user IH]; simpl; [constructor|].
  destruct (nth_error (inputs w) i) as [v|] eqn:N; simpl.
  - rewrite (locked_ok default lock_flag LS). simpl. destruct (mapM _ user) as [l|e]; simpl.
    + constructor; auto. simpl. split; auto. exists v; auto.
    + destruct IH as [-> [j [y [J L]]]]. split; auto. exists j, y. auto.
  - split; auto. exists i, x. split; auto. apply nth_error_None in N. lia.
Qed.

Lemma find_none_iff (f : nat * V -> bool) l : (forall y, In y l -> f y = false) -> find f l = None.
Proof. induction l as [|y l IH]; simpl; intros H; auto. rewrite (H y (or_introl eq_refl)); auto. Qed.

Lemma fold_values user : forall l m i v,
  Forall2 (fun (lix : bool * (nat * V)) ix => snd lix = ix /\
              exists v, nth_error (inputs w) (fst ix) = Some v /\ fst lix = lock_flag v) l user ->
  NoDup (map fst user) -> nth_error (inputs w) i = Some v ->
  fold_left (fun m (lix : bool * (nat * V)) =>
               if fst lix then m else upd m (fst (snd lix)) (Some (snd (snd lix)))) l m i
  = if lock_flag v then m i
    else match find (fun ix => match nth_error (inputs w) (fst ix) with
                             | Some u => Nat.eqb u v | None => false end) user with
       | Some ix => Some (snd ix)
       | None => m i
       end.
Proof.
  induction user as [|[j x] user IH]; intros l m i v F ND N; inversion F as [|lix ix l' u' [E [u [Nu Lu]]] F']; subst; simpl.
  - destruct (lock_flag v); reflexivity.
  - inversion ND as [|? ? Nin ND']; subst. simpl in *. rewrite (IH l' _ i v F' ND' N). rewrite Nu, Lu, E. simpl.
    destruct (Nat.eqb_spec u v) as [->|Duv].
    + assert (j = i).
      { pose proof (inputs_nodup w WF) as NI. rewrite NoDup_nth_error in NI. apply NI; [|congruence].
        apply nth_error_Some; congruence. }
      subst j. destruct (lock_flag v) eqn:Lv; auto.
      rewrite find_none_iff.
      * unfold upd. rewrite Nat.eqb_refl. reflexivity.
      * intros [k y] J. simpl. destruct (nth_error (inputs w) k) as [u|] eqn:Nk; auto.
        apply Nat.eqb_neq. intros ->. assert (k = i).
        { pose proof (inputs_nodup w WF) as NI. rewrite NoDup_nth_error in NI. apply NI; [|congruence].
          apply nth_error_Some; congruence. }
        subst. apply Nin. apply in_map_iff. exists (i, y). auto.
    + assert (Dji : i <> j) by congruence.
      assert (Q : (if lock_flag u then m else upd m j (Some x)) i = m i).
      { destruct (lock_flag u); auto. unfold upd. apply Nat.eqb_neq in Dji. rewrite Dji. reflexivity. }
      rewrite Q. reflexivity.
Qed.

Lemma input_values_spec user :
  NoDup (map fst user) ->
  match input_values user with
  | Ok iv => forall i v, nth_error (inputs w) i = Some v -> iv i = given_by user v
  | Err e => e = IndexError /\ exists i x, In (i, x) user /\ length (inputs w) <= i
  end.
Proof.
  intros ND. unfold ExecModel.input_values. pose proof (allowed_ok user) as A. unfold allowed in A.
  destruct (mapM _ user) as [l|e]; cbn [bind]; auto.
  intros i v N. rewrite (fold_values user l _ i v A ND N). unfold ExecSpec.given_by.
  unfold default_values. rewrite N. reflexivity.
Qed.

Lemma given_starts user iv :
  (forall i v, nth_error (inputs w) i = Some v -> iv i = given_by user v) ->
  starts_with w default (given_by user) iv.
Proof.
  intros H. split.
  - intros i v x N E. rewrite <- (H i v N). auto.
  - intros i v d N E D. exfalso. rewrite (H i v N) in E. unfold ExecSpec.given_by in E. rewrite D in E.
    destruct (lock_flag v); [discriminate|]. destruct (find _ user); discriminate.
Qed.

Variable type_ok : nat -> V -> bool.
Variable evaluate : nat -> list V -> res (list V).
Variable set_order : nat -> list nat -> list nat.
Hypothesis SO : forall b l, Permutation (set_order b l) l.
Variable o : nat.
Hypothesis OUT : output w = Some o.

Notation run := (run w default lock_flag type_ok evaluate set_order).

(** Everything the proofs below need about a run. *)
Lemma run_good user :
  NoDup (map fst user) ->
  let G := given_by user in
  match run user with
  | Ok s => inv w default evaluate G s /\ clean w s /\ (forall n, needed w n -> s_blk s n = true)
            /\ (forall v, In v (inputs w) -> s_var s v = true)
  | Err e =>
      (e = IndexError /\ exists i x, In (i, x) user /\ length (inputs w) <= i)
      \/ explained w type_ok evaluate G (needed w) e
      \/ (e = ValueError /\ exists v, In v (inputs w) /\ G v = None)
      \/ (e = ValueError /\ exists s n, inv w default evaluate G s /\ needed w n /\ s_blk s n = false
           /\ (forall v, In v (inputs w) -> s_var s v = true)
           /\ (forall m, needed w m -> ~ can_evaluate w m s))
  end.
Proof.
  intros ND G. unfold ExecModel.run.
  pose proof (input_values_spec user ND) as IV.
  destruct (input_values user) as [iv|e]; cbn [bind]; [|left; auto].
  pose proof (start_run_good w WF default lock_flag LS type_ok evaluate G o iv (given_starts user iv IV)) as ST.
  destruct (start_run w default lock_flag type_ok iv) as [s0|e] eqn:E0; cbn [bind]; [|right; left; auto].
  destruct ST as [I0 [L0 Iv0]].
  pose proof (activate_inputs_good w WF default lock_flag LS type_ok evaluate G true s0 (i_good _ _ _ _ _ I0) (i_def _ _ _ _ _ I0)) as A.
  destruct (activate_inputs w default lock_flag type_ok true s0) as [s1|e]; cbn [bind].
  - destruct A as [G1 [E1 [D1 [C1 _]]]].
    assert (I1 : inv w default evaluate G s1).
    { constructor; auto. apply (ext_logged _ _ _ E1 (i_logged _ _ _ _ _ I0)). }
    pose proof (continue_run_good w WF default lock_flag LS type_ok evaluate set_order SO G o OUT s1 I1) as R.
    destruct (continue_run w default lock_flag type_ok evaluate set_order s1) as [s2|e]; cbn [bind]; [|right; left; auto].
    destruct R as [I2 [Gr [Cl St]]].
    destruct (completed_ok w WF default lock_flag LS type_ok evaluate set_order SO G o OUT s2) as [c [Ec Cc]].
    rewrite Ec. cbn [bind]. destruct c.
    + split; auto. split.
      * apply Cl. split; rewrite (e_log _ _ _ E1), L0; [constructor|intros n []].
      * split; [apply Cc; auto|]. intros v J. apply (gr_var _ _ _ Gr). auto.
    + right. right. right. split; auto. exists s2.
      assert (X : exists n, needed w n /\ s_blk s2 n = false).
      { destruct (runtime_blocks_ok w WF default lock_flag LS set_order SO o OUT) as [rt [Er Cr]].
        unfold completed in Ec. rewrite Er in Ec. cbn [bind] in Ec. assert (Ef : forallb (s_blk s2) rt = false) by congruence.
        clear - Ef Cr. assert (H : forall l, forallb (s_blk s2) l = false -> exists n, In n l /\ s_blk s2 n = false).
        { induction l as [|x l IH]; simpl; [discriminate|]. destruct (s_blk s2 x) eqn:B; simpl.
          - intros Q. destruct (IH Q) as [n [J Z]]. exists n; auto.
          - intros _. exists x; auto. }
        destruct (H rt Ef) as [n [J Z]]. exists n. split; [apply Cr; exact J|exact Z]. }
      destruct X as [n [Nn Bn]]. exists n. repeat (split; [assumption|]).
      split; [|exact St]. intros v J. apply (gr_var _ _ _ Gr). auto.
  - destruct A as [A|[-> [_ [i [v [N [E D]]]]]]]; [right; left; left; auto|].
    right. right. left. split; auto. exists v. split; [eapply nth_error_In; eauto|].
    destruct (G v) as [x|] eqn:Gv; auto. exfalso.
    assert (Q : iv i = Some x) by (rewrite (IV i v N); exact Gv).
    apply (Iv0 i); congruence.
Qed.

(** ** Soundness *)
Lemma run_output user s : NoDup (map fst user) -> run user = Ok s ->
  forall x, s_out s = Some x <-> has_value w (given_by user) evaluate o x.
Proof.
  intros ND E. pose proof (run_good user ND) as R. rewrite E in R. destruct R as [I [_ [D _]]].
  apply (output_value w WF evaluate _ o OUT s (i_good _ _ _ _ _ I) D).
Qed.

Lemma run_pipes user s : NoDup (map fst user) -> run user = Ok s ->
  forall p q t, nth_error (pipes w) p = Some (q, t) ->
  forall x, s_pipe s p = Some x -> has_value w (given_by user) evaluate q x.
Proof.
  intros ND E. pose proof (run_good user ND) as R. rewrite E in R. destruct R as [I _].
  intros p q t N x X. exact (g_pipe _ _ _ _ (i_good _ _ _ _ _ I) p q t x N X).
Qed.

Lemma run_needed_pipes user s : NoDup (map fst user) -> run user = Ok s ->
  forall p q t n b, nth_error (pipes w) p = Some (q, t) ->
  needed w n -> nth_error (blocks w) n = Some b -> In q (b_out b) ->
  forall x, s_pipe s p = Some x <-> has_value w (given_by user) evaluate q x.
Proof.
  intros ND E p q t n b Np Nn Nb J. pose proof (run_good user ND) as R. rewrite E in R. destruct R as [I [_ [D _]]].
  apply (pipe_value w WF evaluate _ s p q t n b (i_good _ _ _ _ _ I) D Np Nn Nb J).
Qed.

Lemma run_evaluated user s : NoDup (map fst user) -> run user = Ok s ->
  NoDup (evaluated s) /\ (forall n, In n (evaluated s) <-> needed w n)
  /\ (forall l1 n l2, evaluated s = l1 ++ n :: l2 -> forall m, feeds w m n -> In m l1).
Proof.
  intros ND E. pose proof (run_good user ND) as R. rewrite E in R. destruct R as [I [[Nd Cl] [D _]]].
  split; auto. split.
  - intros n. split; auto. intros Nn. apply (g_log _ _ _ _ (i_good _ _ _ _ _ I)). auto.
  - apply (g_order _ _ _ _ (i_good _ _ _ _ _ I)).
Qed.

(** ** Completeness *)
Lemma run_completes user :
  NoDup (map fst user) ->
  (forall i x, In (i, x) user -> i < length (inputs w)) ->
  (forall v, In v (inputs w) -> exists x, given_by user v = Some x /\ type_ok v x = true) ->
  acyclic w ->
  (forall n b xs, needed w n -> nth_error (blocks w) n = Some b ->
     have_values w (given_by user) evaluate (b_in b) xs ->
     exists ys, evaluate n xs = Ok ys /\ length (b_out b) <= length ys) ->
  exists s x, run user = Ok s /\ s_out s = Some x /\ has_value w (given_by user) evaluate o x.
Proof.
  intros ND Hix Hin [rank Rk] Hev.
  pose proof (run_good user ND) as R. cbv zeta in R.
  assert (OKR : exists s, run user = Ok s).
  { destruct (run user) as [s|e]; [eauto|]. exfalso.
    destruct R as [[_ [i [x [J L]]]]|[[[_ [v [x [J [Gx T]]]]]|[n [b [xs [Nn [Nb [HX Ev]]]]]]]
                  |[[_ [v [J Gv]]]|[_ [s [n [I [Nn [Bn [Iv St]]]]]]]]]].
    - apply Hix in J. lia.
    - destruct (Hin v J) as [y [Gy Ty]]. congruence.
    - destruct (Hev n b xs Nn Nb HX) as [ys [E _]]. congruence.
    - destruct (Hin v J) as [y [Gy Ty]]. congruence.
    - assert (Q : s_blk s n = true); [|congruence].
      apply (all_done w WF evaluate (given_by user) s rank (i_good _ _ _ _ _ I)); auto.
      intros m b xs ys Nm Nb HX Ev. destruct (Hev m b xs Nm Nb HX) as [ys' [E L]]. congruence. }
  destruct OKR as [s E]. rewrite E in R. destruct R as [I [_ [D _]]].
  assert (Gd := i_good _ _ _ _ _ I).
  destruct (wf_output w WF o OUT) as [b [Ib Jb]]. apply In_nth_error in Ib. destruct Ib as [n N].
  assert (Nn : needed w n) by (eapply needed_output; eauto).
  destruct (g_blk _ _ _ _ Gd n (D n Nn)) as [b' [xs [ys [N' [HX [Ev Al]]]]]].
  rewrite N in N'; inversion N'; subst b'.
  apply In_nth_error in Jb. destruct Jb as [j Nj].
  destruct (Hev n b xs Nn N HX) as [ys' [E' L]]. rewrite Ev in E'; inversion E'; subst ys'.
  destruct (nth_error ys j) as [y|] eqn:Y.
  - assert (Hy : has_value w (given_by user) evaluate o y) by (eapply hv_block; eauto).
    exists s, y. split; auto. split; auto. apply (run_output user s ND E). auto.
  - exfalso. apply nth_error_None in Y. assert (j < length (b_out b)) by (apply nth_error_Some; congruence). lia.
Qed.

(** ** Why a run does not complete *)
Lemma stuck_short G s :
  good w evaluate G s ->
  (forall v, In v (inputs w) -> s_var s v = true) ->
  (forall m, needed w m -> ~ can_evaluate w m s) ->
  acyclic w ->
  forall n, needed w n -> s_blk s n = false ->
  exists m b xs ys, needed w m /\ nth_error (blocks w) m = Some b
    /\ have_values w G evaluate (b_in b) xs /\ evaluate m xs = Ok ys /\ length ys < length (b_out b).
Proof.
  intros Gd Hin Stuck [rank Rk].
  assert (P : forall k n, rank n < k -> needed w n -> s_blk s n = false ->
     exists m b xs ys, needed w m /\ nth_error (blocks w) m = Some b
    /\ have_values w G evaluate (b_in b) xs /\ evaluate m xs = Ok ys /\ length ys < length (b_out b)).
  { induction k as [|k IH]; intros n Lk Nn Bn; [lia|].
    assert (L := needed_valid w n Nn).
    destruct (nth_error (blocks w) n) as [b|] eqn:N; [|apply nth_error_None in N; lia].
    destruct (forallb (s_var s) (b_in b)) eqn:FA.
    - exfalso. apply (Stuck n Nn). split; auto. split; auto. unfold block_activable_by_inputs. rewrite N. auto.
    - assert (X : exists v, In v (b_in b) /\ s_var s v = false).
      { clear - FA. induction (b_in b) as [|x l IHl]; simpl in *; [discriminate|].
        destruct (s_var s x) eqn:E; simpl in *; [|exists x; auto].
        destruct (IHl FA) as [v [I Q]]. exists v; auto. }
      destruct X as [v [J Tv]].
      destruct (upstream_variable w v) as [q|] eqn:U.
      + apply (upstream_variable_some w WF) in U. assert (U' := U). apply In_nth_error in U'. destruct U' as [p Np].
        destruct (in_dec Nat.eq_dec q (block_variables w)) as [I|I].
        * apply in_block_variables in I. destruct I as [bm [Ibm [I|I]]].
          -- exfalso. exact (wf_source w WF _ _ _ U Ibm I).
          -- apply In_nth_error in Ibm. destruct Ibm as [m Nm].
             assert (F : feeds w m n) by (exists bm, b, q, v; auto).
             assert (Nd : needed w m) by (eapply needed_upstream; eauto).
             assert (R := Rk m n F Nn).
             destruct (s_blk s m) eqn:Bm; [|apply (IH m); auto; lia].
             destruct (g_blk _ _ _ _ Gd m Bm) as [b' [xs [ys [N' [HX [Ev Al]]]]]].
             rewrite Nm in N'; inversion N'; subst b'.
             apply In_nth_error in I. destruct I as [j Nj].
             exists m, bm, xs, ys. repeat (split; [assumption|]).
             destruct (nth_error ys j) as [y|] eqn:Y.
             ++ exfalso. assert (T : s_var s q = true) by (eapply Al; eauto).
                apply (g_prop _ _ _ _ Gd p q v Np) in T. congruence.
             ++ apply nth_error_None in Y. assert (j < length (b_out bm)) by (apply nth_error_Some; congruence). lia.
        * exfalso. assert (T : s_var s q = true).
          { apply Hin. apply (inputs_In w WF). right. split; auto. apply in_map_iff. exists (q, v); auto. }
          apply (g_prop _ _ _ _ Gd p q v Np) in T. congruence.
      + exfalso. apply (upstream_variable_none w WF) in U.
        assert (T : s_var s v = true); [|congruence]. apply Hin. apply (inputs_In w WF). left. exists b.
        split; auto. eapply nth_error_In; eauto. }
  intros n. apply (P (S (rank n))). lia.
Qed.

(** ** Sessions *)
Notation interactive := (interactive w default lock_flag type_ok evaluate set_order).
Notation completed := (completed w default lock_flag set_order).

Lemma session_inv G iv acts s :
  starts_with w default G iv -> (forall a, In a acts -> agrees w G a) ->
  interactive iv acts = Ok s -> inv w default evaluate G s.
Proof.
  intros ST A E. unfold ExecModel.interactive in E.
  pose proof (start_run_good w WF default lock_flag LS type_ok evaluate G o iv ST) as S0.
  destruct (start_run w default lock_flag type_ok iv) as [s0|e]; cbn [bind] in E; [|discriminate].
  destruct S0 as [I0 _].
  pose proof (acts_good w WF default lock_flag LS type_ok evaluate set_order SO G o OUT acts s0 I0 A) as B.
  rewrite E in B. apply B.
Qed.

Lemma session_result G iv acts s :
  starts_with w default G iv -> (forall a, In a acts -> agrees w G a) ->
  interactive iv acts = Ok s -> completed s = Ok true ->
  (forall x, s_out s = Some x <-> has_value w G evaluate o x)
  /\ (forall p q t n b, nth_error (pipes w) p = Some (q, t) ->
       needed w n -> nth_error (blocks w) n = Some b -> In q (b_out b) ->
       forall x, s_pipe s p = Some x <-> has_value w G evaluate q x).
Proof.
  intros ST A E C. assert (I := session_inv G iv acts s ST A E). assert (Gd := i_good _ _ _ _ _ I).
  destruct (completed_ok w WF default lock_flag LS type_ok evaluate set_order SO G o OUT s) as [c [Ec Cc]].
  rewrite C in Ec. inversion Ec; subst c. assert (D := proj1 Cc eq_refl). split.
  - apply (output_value w WF evaluate _ o OUT s Gd D).
  - intros p q t n b Np Nn Nb J. apply (pipe_value w WF evaluate _ s p q t n b Gd D Np Nn Nb J).
Qed.

Lemma session_order G iv acts s :
  starts_with w default G iv -> (forall a, In a acts -> agrees w G a) ->
  interactive iv acts = Ok s ->
  forall l1 n l2, evaluated s = l1 ++ n :: l2 -> forall m, feeds w m n -> In m l1.
Proof.
  intros ST A E. assert (I := session_inv G iv acts s ST A E). apply (g_order _ _ _ _ (i_good _ _ _ _ _ I)).
Qed.

Lemma option_iff {A} (a b : option A) (P : A -> Prop) :
  (forall x, a = Some x <-> P x) -> (forall x, b = Some x <-> P x) -> a = b.
Proof.
  intros H1 H2. destruct a as [x|].
  - symmetry. apply H2. apply H1. reflexivity.
  - destruct b as [y|]; auto. apply H1. apply H2. reflexivity.
Qed.

Lemma session_run user iv acts s1 s2 :
  NoDup (map fst user) -> run user = Ok s1 ->
  starts_with w default (given_by user) iv -> (forall a, In a acts -> agrees w (given_by user) a) ->
  interactive iv acts = Ok s2 -> completed s2 = Ok true ->
  s_out s2 = s_out s1
  /\ (forall p q t n b, nth_error (pipes w) p = Some (q, t) ->
       needed w n -> nth_error (blocks w) n = Some b -> In q (b_out b) -> s_pipe s2 p = s_pipe s1 p).
Proof.
  intros ND R ST A E C. destruct (session_result _ iv acts s2 ST A E C) as [So Sp]. split.
  - eapply option_iff; [apply So|]. apply (run_output user s1 ND R).
  - intros p q t n b Np Nn Nb J. eapply option_iff; [eapply Sp; eauto|].
    eapply run_needed_pipes; eauto.
Qed.

End R.

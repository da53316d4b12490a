(** Evaluation of a branch refines the data flow, and reaches every block it can. *)
From Coq Require Import String Bool Arith Lia Permutation List.
From Verif Require Import Base BaseProofs ExecModel ExecSpec ExecStruct ExecRuntime ExecProofs ExecRun
  BranchModel BranchSpec BranchProofs.
Import ListNotations.

Section B.
Context {V : Type}.
Variable w : workflow.
Hypothesis WF : well_formed w.
Variable default : nat -> option V.
Variable lock_flag : nat -> bool.
Hypothesis LS : locks_sound default lock_flag.
Variable type_ok : nat -> V -> bool.
Variable evaluate : nat -> list V -> res (list V).
Variable set_order : nat -> list nat -> list nat.
Hypothesis SO : forall b l, Permutation (set_order b l) l.
Variable G : nat -> option V.
Variable o : nat.
Hypothesis OUT : output w = Some o.

Notation state := (state V).
Notation inv := (inv w default evaluate G).
Notation good := (good w evaluate G).
Notation grows := (grows w).
Notation hvs := (have_values w G evaluate).
Notation evaluate_block_values := (evaluate_block_values w evaluate).
Notation evaluate_all := (evaluate_all w evaluate).
Notation branch_rounds := (branch_rounds w default lock_flag evaluate set_order).
Notation evaluate_branch := (evaluate_branch w default lock_flag type_ok evaluate set_order).
Notation activable_blocks := (activable_blocks w default lock_flag set_order).
Notation activate_inputs := (activate_inputs w default lock_flag type_ok).
Notation block_result := (block_result w G evaluate).
Notation explained := (explained w type_ok evaluate G).
Notation valid n := (n < List.length (blocks w)).
Notation results := (@results V).

(** ** Dictionaries *)
Lemma lookup_store n b ys (ev : results) :
  lookup n (store b ys ev) = if Nat.eqb b n then Some ys else lookup n ev.
Proof.
  unfold lookup. induction ev as [|[k y] ev IH]; simpl.
  - destruct (Nat.eqb b n); reflexivity.
  - destruct (Nat.eqb_spec k b) as [->|D]; simpl.
    + destruct (Nat.eqb b n); reflexivity.
    + destruct (Nat.eqb_spec k n) as [->|D']; simpl.
      * destruct (Nat.eqb_spec b n); [congruence|reflexivity].
      * exact IH.
Qed.

Lemma store_keys b ys (ev : results) x : In x (map fst (store b ys ev)) <-> x = b \/ In x (map fst ev).
Proof.
  induction ev as [|[k y] ev IH]; simpl; [intuition congruence|].
  destruct (Nat.eqb_spec k b) as [->|D]; simpl; [intuition congruence|]. rewrite IH. tauto.
Qed.

Lemma store_nodup b ys (ev : results) : NoDup (map fst ev) -> NoDup (map fst (store b ys ev)).
Proof.
  induction ev as [|[k y] ev IH]; simpl; intros ND; [repeat constructor; auto|].
  inversion ND as [|? ? Nin ND']; subst.
  destruct (Nat.eqb_spec k b) as [->|D]; simpl; constructor; auto.
  intros I. apply store_keys in I. destruct I; congruence.
Qed.

Lemma lookup_keys n (ev : results) : lookup n ev <> None <-> In n (map fst ev).
Proof.
  unfold lookup. induction ev as [|[k y] ev IH]; simpl; [tauto|].
  destruct (Nat.eqb_spec k n) as [->|D]; simpl; [split; auto; discriminate|]. rewrite IH. intuition congruence.
Qed.

(** ** One block *)
Lemma values_block n (s : state) :
  ExecModel.evaluate_block w evaluate n s = let* r := evaluate_block_values n s in Ok (fst r).
Proof.
  unfold ExecModel.evaluate_block, BranchModel.evaluate_block_values.
  destruct (nth_error (blocks w) n) as [b|]; auto.
  destruct (read_inputs w (b_in b) s) as [r|e]; auto. cbn [bind].
  destruct (evaluate n (snd r)) as [ys|e]; auto. cbn [bind].
  destruct (activate_block w n (b_out b) ys (log_block n (fst r))) as [s'|e]; reflexivity.
Qed.

Lemma values_good n b s :
  inv s -> nth_error (blocks w) n = Some b -> (forall v, In v (b_in b) -> s_var s v = true) ->
  match evaluate_block_values n s with
  | Ok (s', ys) => inv s' /\ grows s s' /\ s_blk s' n = true /\ s_iv s' = s_iv s /\ block_result n ys
      /\ evaluated s' = evaluated s ++ [n] /\ (forall m, s_blk s' m = true -> m = n \/ s_blk s m = true)
  | Err e => exists xs, hvs (b_in b) xs /\ evaluate n xs = Err e
  end.
Proof.
  intros [Gd D Lg] N Hv.
  pose proof (evaluate_block_good w WF type_ok evaluate G n b s Gd N Hv) as EB. rewrite values_block in EB.
  destruct (read_inputs_good w WF evaluate G n b N (b_in b) s Gd (fun v I => I) Hv) as [s1 [xs [A1 [_ [_ [HX _]]]]]].
  unfold BranchModel.evaluate_block_values in *. rewrite N, A1 in *. cbn [bind snd fst] in *.
  destruct (evaluate n xs) as [ys|e] eqn:Ev; cbn [bind] in *; auto.
  destruct (activate_block w n (b_out b) ys (log_block n s1)) as [s2|e]; cbn [bind fst] in *; auto.
  destruct EB as [G2 [Gr [Lg2 [Bk Iv]]]].
  split; [|split; [|split; [|split; [|split; [|split]]]]]; auto.
  - constructor; auto.
    + eapply defaults_agree_mono; [apply Gr|auto].
    + intros m I. rewrite Lg2 in I. rewrite Bk, upd_true. apply in_app_or in I. destruct I as [I|[<-|[]]]; auto.
  - rewrite Bk. apply upd_same.
  - exists b, xs. auto.
  - intros m. rewrite Bk, upd_true. tauto.
Qed.

(** ** Several blocks *)
Definition sound_results (ev : results) : Prop := forall n ys, lookup n ev = Some ys -> block_result n ys.

Definition ready (n : nat) (s : state) : Prop :=
  exists b, nth_error (blocks w) n = Some b /\ forall v, In v (b_in b) -> s_var s v = true.

Lemma ready_grows n s s' : grows s s' -> ready n s -> ready n s'.
Proof. intros Gr [b [N H]]. exists b. split; auto. intros v I. apply (gr_var _ _ _ Gr). auto. Qed.

Lemma evaluate_all_good bs : forall s ev,
  inv s -> sound_results ev -> NoDup (map fst ev) -> (forall n, In n bs -> ready n s) ->
  match evaluate_all bs s ev with
  | Ok (s', ev') => inv s' /\ grows s s' /\ sound_results ev' /\ NoDup (map fst ev') /\ s_iv s' = s_iv s
      /\ (forall n, lookup n ev' <> None <-> In n bs \/ lookup n ev <> None)
      /\ (forall n, In n bs -> s_blk s' n = true)
      /\ (forall n, s_blk s' n = true -> In n bs \/ s_blk s n = true)
      /\ evaluated s' = evaluated s ++ bs
  | Err e => explained (fun n => In n bs) e
  end.
Proof.
  induction bs as [|n bs IH]; intros s ev I Sn ND R.
  - simpl. split; auto. split; [apply grows_refl|]. split; auto. split; auto. split; auto.
    split; [tauto|]. split; [tauto|]. split; [tauto|]. rewrite app_nil_r. auto.
  - cbn [BranchModel.evaluate_all]. destruct (R n (or_introl eq_refl)) as [b [N Hv]].
    pose proof (values_good n b s I N Hv) as VG.
    destruct (evaluate_block_values n s) as [[s1 ys]|e]; cbn [bind fst snd].
    + destruct VG as [I1 [Gr1 [B1 [Iv1 [Rs [Lg1 Bk1]]]]]].
      assert (S1 : sound_results (store n ys ev)).
      { intros m zs. rewrite lookup_store. destruct (Nat.eqb_spec n m) as [<-|]; [|apply Sn].
        intros Q; inversion Q; subst; auto. }
      specialize (IH s1 (store n ys ev) I1 S1 (store_nodup n ys ev ND)
                   (fun m J => ready_grows m s s1 Gr1 (R m (or_intror J)))).
      destruct (evaluate_all bs s1 (store n ys ev)) as [[s2 ev2]|e].
      * destruct IH as [I2 [Gr2 [S2 [N2 [Iv2 [K2 [D2 [D3 Lg2]]]]]]]].
        split; auto. split; [eapply grows_trans; eauto|]. split; auto. split; auto. split; [congruence|].
        split; [|split; [|split]].
        -- intros m. rewrite K2, lookup_store. simpl. destruct (Nat.eqb_spec n m).
           ++ split; auto. intros _. right. discriminate.
           ++ tauto.
        -- intros m [<-|J]; auto. apply (gr_blk _ _ _ Gr2). auto.
        -- intros m Q. apply D3 in Q. destruct Q as [Q|Q]; simpl; auto. apply Bk1 in Q. destruct Q as [->|Q]; auto.
        -- rewrite Lg2, Lg1, <- app_assoc. reflexivity.
      * eapply explained_mono; [|exact IH]. simpl; auto.
    + destruct VG as [xs [HX Ev]]. right. exists n, b, xs. simpl; auto.
Qed.

Lemma activable_ok (s : state) : exists l, activable_blocks s = Ok l /\
   forall n, In n l <-> ready n s /\ (s_blk s n = false \/ ~ needed w n).
Proof.
  destruct (activable_In w WF default lock_flag LS type_ok evaluate set_order SO G o OUT s) as [rt [_ [_ [l [El Cl]]]]].
  exists l. split; auto. intros n. rewrite Cl. split.
  - intros [L [A B]]. split; auto.
    destruct (nth_error (blocks w) n) as [b|] eqn:N; [|apply nth_error_None in N; lia].
    exists b. split; auto. eapply activable_inputs; eauto.
  - intros [[b [N H]] B]. split; [apply nth_error_Some; congruence|]. split; auto.
    unfold block_activable_by_inputs. rewrite N. apply forallb_forall. auto.
Qed.

(** ** All rounds *)
Lemma rounds_good n bs : forall s ev,
  inv s -> sound_results ev -> NoDup (map fst ev) -> (forall m, lookup m ev <> None -> In m bs) ->
  match branch_rounds n bs s ev with
  | Ok (s', ev') => inv s' /\ grows s s' /\ sound_results ev' /\ s_iv s' = s_iv s
      /\ (forall m, lookup m ev' <> None -> In m bs)
      /\ (forall m, s_blk s' m = true -> In m bs \/ s_blk s m = true)
  | Err e => explained (fun m => In m bs) e
  end.
Proof.
  induction n as [|n IH]; intros s ev I Sn ND K.
  - simpl. split; auto. split; [apply grows_refl|]. auto.
  - cbn [BranchModel.branch_rounds]. destruct (Nat.eqb (List.length ev) (List.length bs)).
    + split; auto. split; [apply grows_refl|]. auto.
    + destruct (activable_ok s) as [l [El Cl]]. rewrite El. cbn [bind].
      set (next := filter _ bs).
      assert (Hn : forall m, In m next -> In m bs /\ ready m s).
      { intros m J. apply filter_In in J. destruct J as [J Q]. apply andb_true_iff in Q. destruct Q as [Q _].
        apply (memb_In _ nat_eqb_iff), Cl in Q. tauto. }
      pose proof (evaluate_all_good next s ev I Sn ND (fun m J => proj2 (Hn m J))) as EA.
      destruct (evaluate_all next s ev) as [[s1 ev1]|e]; cbn [bind fst snd].
      * destruct EA as [I1 [Gr1 [S1 [N1 [Iv1 [K1 [D1 [D2 _]]]]]]]].
        specialize (IH s1 ev1 I1 S1 N1).
        destruct (branch_rounds n bs s1 ev1) as [[s2 ev2]|e].
        -- destruct IH as [I2 [Gr2 [S2 [Iv2 [K2 B2]]]]].
           { intros m Q. apply K1 in Q. destruct Q as [Q|Q]; auto. apply Hn; auto. }
           split; auto. split; [eapply grows_trans; eauto|]. split; auto. split; [congruence|]. split; auto.
           intros m Q. apply B2 in Q. destruct Q as [Q|Q]; auto. apply D2 in Q. destruct Q as [Q|Q]; auto.
           left. apply Hn; auto.
        -- apply IH. intros m Q. apply K1 in Q. destruct Q as [Q|Q]; auto. apply Hn; auto.
      * eapply explained_mono; [|exact EA]. intros m J. apply Hn; auto.
Qed.

Lemma evaluate_branch_good bs s :
  inv s ->
  match evaluate_branch bs s with
  | Ok (s', ev) => inv s' /\ grows s s' /\ sound_results ev /\ (forall m, lookup m ev <> None -> In m bs)
      /\ (forall m, s_blk s' m = true -> In m bs \/ s_blk s m = true)
  | Err e => explained (fun m => In m bs) e
      \/ (e = WorkflowError /\ exists s1, activate_inputs false s = Ok s1 /\ inv s1 /\ ext w s s1
          /\ forall m, In m bs -> ~ (ready m s1 /\ (s_blk s1 m = false \/ ~ needed w m)))
  end.
Proof.
  intros I. unfold BranchModel.evaluate_branch.
  pose proof (activate_inputs_inv w WF default lock_flag LS type_ok evaluate G s I) as A.
  destruct (activate_inputs false s) as [s1|e]; cbn [bind]; [|left; left; auto].
  destruct A as [I1 E1]. destruct (activable_ok s1) as [l [El Cl]]. rewrite El. cbn [bind].
  destruct (existsb (fun b => memb Nat.eqb b l) bs) eqn:X.
  - pose proof (rounds_good (S (List.length bs)) bs s1 [] I1 ltac:(intros n ys Q; discriminate)
       ltac:(constructor) ltac:(intros m Q; exfalso; apply Q; reflexivity)) as R.
    destruct (branch_rounds (S (List.length bs)) bs s1 []) as [[s2 ev]|e]; auto.
    destruct R as [I2 [Gr [S2 [Iv [K B]]]]]. split; auto.
    split; [eapply grows_trans; [apply ext_grows; eauto|auto]|]. split; auto. split; auto.
    intros m Q. apply B in Q. rewrite (e_blk _ _ _ E1) in Q. auto.
  - right. split; auto. exists s1. split; auto. split; auto. split; auto. intros m J Q.
    assert (Y : existsb (fun b => memb Nat.eqb b l) bs = true); [|congruence].
    apply existsb_exists. exists m. split; auto. apply (memb_In _ nat_eqb_iff). apply Cl. auto.
Qed.

(** ** Reaching every block *)
Section Reach.
Variable bs : list nat.
Variable done : nat -> Prop.
Hypothesis Vbs : forall n, In n bs -> valid n.
(** every feeder is in the branch or was evaluated before *)
Hypothesis CL : forall m n, In n bs -> feeds w m n -> In m bs \/ done m.
Variable rank : nat -> nat.
Hypothesis RK : forall m n, feeds w m n -> In m bs -> In n bs -> rank m < rank n.
Hypothesis LONG : forall n b xs ys, In n bs \/ done n -> nth_error (blocks w) n = Some b ->
   hvs (b_in b) xs -> evaluate n xs = Ok ys -> List.length (b_out b) <= List.length ys.

Definition inputs_on (s : state) : Prop :=
  forall n v, In n bs -> reads_input w n v -> s_var s v = true.

Lemma blk_outputs s m b q : good s -> s_blk s m = true -> In m bs \/ done m ->
  nth_error (blocks w) m = Some b -> In q (b_out b) -> s_var s q = true.
Proof.
  intros Gd B Hm N I. destruct (g_blk _ _ _ _ Gd m B) as [b' [xs [ys [N' [HX [Ev Al]]]]]].
  rewrite N in N'; inversion N'; subst b'. apply In_nth_error in I. destruct I as [j Nj].
  destruct (nth_error ys j) as [y|] eqn:Y; [eapply Al; eauto|].
  exfalso. apply nth_error_None in Y. pose proof (LONG m b xs ys Hm N HX Ev).
  assert (j < List.length (b_out b)) by (apply nth_error_Some; congruence). lia.
Qed.

Lemma ready_when s n : good s -> inputs_on s -> In n bs ->
  (forall m, feeds w m n -> In m bs -> s_blk s m = true) -> (forall m, done m -> s_blk s m = true) -> ready n s.
Proof.
  intros Gd Hin In' Hf Hd.
  destruct (nth_error (blocks w) n) as [b|] eqn:N; [|apply nth_error_None in N; specialize (Vbs n In'); lia].
  exists b. split; auto. intros v J.
  destruct (upstream_variable w v) as [q|] eqn:U.
  - apply (upstream_variable_some w WF) in U. assert (U' := U). apply In_nth_error in U'. destruct U' as [p Np].
    apply (g_prop _ _ _ _ Gd p q v Np).
    destruct (in_dec Nat.eq_dec q (block_variables w)) as [I|I].
    + apply in_block_variables in I. destruct I as [bm [Ibm [I|I]]].
      * exfalso. exact (wf_source w WF _ _ _ U Ibm I).
      * apply In_nth_error in Ibm. destruct Ibm as [m Nm].
        assert (F : feeds w m n) by (exists bm, b, q, v; auto).
        destruct (CL m n In' F) as [Q|Q]; eapply blk_outputs; eauto.
    + apply Hin with n; auto. exists b, v. split; auto. split; auto. split; auto. right. split; auto.
      apply in_map_iff. exists (q, v); auto.
  - apply (upstream_variable_none w WF) in U. apply Hin with n; auto. exists b, v. split; auto. split; auto. split; auto.
    left. exists b. split; auto. eapply nth_error_In; eauto.
Qed.

Definition remaining (ev : results) : list nat :=
  filter (fun n => match lookup n ev with Some _ => false | None => true end) (nodup Nat.eq_dec bs).

Lemma remaining_In ev n : In n (remaining ev) <-> In n bs /\ lookup n ev = None.
Proof.
  unfold remaining. rewrite filter_In, nodup_In. destruct (lookup n ev); intuition congruence.
Qed.

Lemma min_rank l : l <> [] -> exists n, In n l /\ forall m, In m l -> rank n <= rank m.
Proof.
  induction l as [|x l IH]; intros H; [congruence|].
  destruct l as [|y l]; [exists x; split; simpl; auto; intros m [<-|[]]; auto|].
  destruct IH as [n [I M]]; [discriminate|].
  destruct (le_lt_dec (rank x) (rank n)) as [L|L].
  - exists x. split; simpl; auto. intros m [<-|J]; auto. specialize (M m J). lia.
  - exists n. split; [right; auto|]. intros m [<-|J]; [lia|auto].
Qed.

(** while something remains, some remaining block is activable *)
Lemma next_exists s ev : good s -> inputs_on s -> (forall m, done m -> s_blk s m = true) ->
  (forall n, In n bs -> lookup n ev <> None -> s_blk s n = true) ->
  remaining ev <> [] -> exists n, In n bs /\ lookup n ev = None /\ ready n s.
Proof.
  intros Gd Hin Hd Hev R. destruct (min_rank _ R) as [n [I M]]. exists n.
  apply remaining_In in I. destruct I as [I L]. split; auto. split; auto.
  apply ready_when; auto. intros m F J. apply Hev; auto. intros Q.
  assert (X : In m (remaining ev)) by (apply remaining_In; auto). apply M in X.
  pose proof (RK m n F J I). lia.
Qed.

Lemma rounds_reach n : forall s ev,
  inv s -> inputs_on s -> (forall m, done m -> s_blk s m = true) -> sound_results ev -> NoDup (map fst ev) ->
  (forall m, lookup m ev <> None -> In m bs) ->
  (forall m, In m bs -> lookup m ev <> None -> s_blk s m = true) ->
  (forall m, In m bs -> ~ needed w m \/ (lookup m ev = None -> s_blk s m = false)) ->
  List.length (remaining ev) <= n ->
  match branch_rounds n bs s ev with
  | Ok (s', ev') => forall m, In m bs -> lookup m ev' <> None
  | Err e => explained (fun m => In m bs) e
  end.
Proof.
  assert (ALL : forall ev, remaining ev = [] -> forall m, In m bs -> lookup m ev <> None).
  { intros ev R m J Q. assert (X : In m (remaining ev)) by (apply remaining_In; auto). rewrite R in X. destruct X. }
  induction n as [|n IH]; intros s ev I Hin Hd Sn ND K Kb Av L.
  - simpl. apply ALL. destruct (remaining ev); auto. simpl in L. lia.
  - cbn [BranchModel.branch_rounds]. destruct (Nat.eqb_spec (List.length ev) (List.length bs)) as [Le|Le].
    + intros m J. apply lookup_keys.
      refine (NoDup_length_incl ND _ _ m J).
      * rewrite map_length. lia.
      * intros x Q. apply K. apply lookup_keys. auto.
    + destruct (activable_ok s) as [l [El Cl]]. rewrite El. cbn [bind].
      set (next := filter _ bs).
      assert (Hn : forall m, In m next <-> In m bs /\ ready m s /\ lookup m ev = None).
      { intros m. unfold next. rewrite filter_In, andb_true_iff, (memb_In _ nat_eqb_iff), Cl.
        destruct (lookup m ev) eqn:Q.
        - split; [intros [_ [_ X]]; discriminate|intros [_ [_ X]]; discriminate].
        - split; [tauto|]. intros [J [Rm _]]. split; auto. split; auto. split; auto.
          destruct (Av m J) as [|X]; auto. }
      pose proof (evaluate_all_good next s ev I Sn ND (fun m J => proj1 (proj2 (proj1 (Hn m) J)))) as EA.
      destruct (evaluate_all next s ev) as [[s1 ev1]|e]; cbn [bind fst snd].
      * destruct EA as [I1 [Gr1 [S1 [N1 [Iv1 [K1 [D1 [D2 _]]]]]]]].
        apply IH; auto.
        -- intros m v J R. apply (gr_var _ _ _ Gr1). eapply Hin; eauto.
        -- intros m Q. apply (gr_blk _ _ _ Gr1). auto.
        -- intros m Q. apply K1 in Q. destruct Q as [Q|Q]; auto. apply Hn in Q. tauto.
        -- intros m J Q. apply K1 in Q. destruct Q as [Q|Q]; auto. apply (gr_blk _ _ _ Gr1). auto.
        -- intros m J. destruct (Av m J) as [X|X]; auto. right. intros Q.
           assert (Q0 : lookup m ev = None).
           { destruct (lookup m ev) eqn:Z; auto. exfalso. apply (proj2 (K1 m)); auto. right. congruence. }
           destruct (s_blk s1 m) eqn:Z; auto. exfalso. destruct (D2 m Z) as [Y|Y].
           ++ exact (proj2 (K1 m) (or_introl Y) Q).
           ++ rewrite (X Q0) in Y. discriminate.
        -- destruct (remaining ev) as [|r0 rs] eqn:R.
           ++ assert (Z : remaining ev1 = []).
              { destruct (remaining ev1) as [|x xs] eqn:Z; auto. exfalso.
                assert (X : In x (remaining ev1)) by (rewrite Z; simpl; auto). apply remaining_In in X. destruct X as [J Q].
                exact (proj2 (K1 x) (or_intror (ALL ev R x J)) Q). }
              rewrite Z. simpl. lia.
           ++ destruct (next_exists s ev (i_good _ _ _ _ _ I) Hin Hd Kb) as [x [J [Q Rx]]]; [congruence|].
              assert (Lt : List.length (remaining ev1) < List.length (remaining ev)); [|rewrite R in Lt; lia].
              unfold remaining. apply filter_shorter.
              ** intros y _. destruct (lookup y ev1) eqn:Y1; [discriminate|]. intros _.
                 destruct (lookup y ev) eqn:Y0; auto. exfalso. apply (proj2 (K1 y)); auto. right. congruence.
              ** exists x. split; [apply nodup_In; auto|]. rewrite Q. split; auto.
                 destruct (lookup x ev1) eqn:Y1; auto. exfalso. apply (proj2 (K1 x)); auto.
                 left. apply Hn. auto.
      * eapply explained_mono; [|exact EA]. intros m J. apply Hn in J. tauto.
Qed.

Lemma evaluate_branch_reach s s1 :
  inv s -> bs <> [] -> activate_inputs false s = Ok s1 -> inputs_on s1 -> (forall m, done m -> s_blk s m = true) ->
  (forall m, In m bs -> ~ needed w m \/ s_blk s m = false) ->
  match evaluate_branch bs s with
  | Ok (s', ev) => forall m, In m bs -> lookup m ev <> None
  | Err e => explained (fun m => In m bs) e
  end.
Proof.
  intros I NE A Hin Hd Av. unfold BranchModel.evaluate_branch.
  pose proof (activate_inputs_inv w WF default lock_flag LS type_ok evaluate G s I) as AI.
  rewrite A in *. cbn [bind]. destruct AI as [I1 E1].
  destruct (activable_ok s1) as [l [El Cl]]. rewrite El. cbn [bind].
  assert (Av1 : forall m, In m bs -> ~ needed w m \/ s_blk s1 m = false) by (intros m J; rewrite (e_blk _ _ _ E1); auto).
  assert (Hd1 : forall m, done m -> s_blk s1 m = true) by (intros m J; rewrite (e_blk _ _ _ E1); auto).
  assert (Hev : forall n, In n bs -> @lookup V n [] <> None -> s_blk s1 n = true)
    by (intros n _ Q; exfalso; apply Q; reflexivity).
  assert (X : existsb (fun b => memb Nat.eqb b l) bs = true).
  { destruct (next_exists s1 [] (i_good _ _ _ _ _ I1) Hin Hd1 Hev) as [x [J [_ Rx]]].
    - destruct bs as [|b0 l0] eqn:Eb; [congruence|]. intros Q.
      assert (Y : In b0 (remaining [])) by (apply remaining_In; rewrite Eb; split; [simpl; auto|reflexivity]).
      rewrite Q in Y. destruct Y.
    - apply existsb_exists. exists x. split; auto. apply (memb_In _ nat_eqb_iff). apply Cl. split; auto.
      destruct (Av1 x J); auto. }
  rewrite X. apply rounds_reach; auto.
  - intros n ys Q; discriminate.
  - constructor.
  - intros m Q. exfalso. apply Q. reflexivity.
  - intros m J. destruct (Av1 m J); auto.
  - apply Nat.le_trans with (List.length (nodup Nat.eq_dec bs)).
    + unfold remaining. clear. induction (nodup Nat.eq_dec bs) as [|x l IH]; simpl; auto.
      simpl in IH. lia.
    + apply Nat.le_trans with (List.length bs); [|lia].
      apply NoDup_incl_length; [apply NoDup_nodup|]. intros x. apply nodup_In.
Qed.
End Reach.
End B.

(** Displays, exports, sessions and step displays. *)
From Coq Require Import String Bool Arith Lia Permutation List.
From Verif Require Import Base BaseProofs ExecModel ExecSpec ExecStruct ExecRuntime ExecProofs ExecRun
  BranchModel BranchSpec BranchProofs BranchEval.
Import ListNotations.

Section B.
Context {V : Type}.
Variable w : workflow.
Hypothesis WF : well_formed w.
Variable default : nat -> option V.
Variable lock_flag : nat -> bool.
Hypothesis LS : locks_sound default lock_flag.
Variable type_ok : nat -> V -> bool.
Variable evaluate : nat -> list V -> res (list V).
Variable set_order : nat -> list nat -> list nat.
Hypothesis SO : forall b l, Permutation (set_order b l) l.
Variable o : nat.
Hypothesis OUT : output w = Some o.
Variable selector : nat -> string.

Notation state := (state V).
Notation valid n := (n < List.length (blocks w)).
Notation secondary_branch_blocks := (secondary_branch_blocks w default lock_flag set_order).
Notation branch_by_selector := (branch_by_selector w default lock_flag set_order selector).
Notation evaluate_branch := (evaluate_branch w default lock_flag type_ok evaluate set_order).
Notation show := (show w default lock_flag type_ok evaluate set_order selector).
Notation activate_inputs := (activate_inputs w default lock_flag type_ok).
Notation upstream_branch := (upstream_branch w default lock_flag set_order).
Notation step_display := (step_display w default lock_flag type_ok evaluate set_order).

(** ** Branches by selector *)
Lemma get_set k k' br d : get_branch k (set_branch k' br d) = if String.eqb k' k then Some br else get_branch k d.
Proof.
  unfold get_branch. induction d as [|[j x] d IH]; simpl.
  - destruct (String.eqb k' k); reflexivity.
  - destruct (String.eqb_spec j k') as [->|D]; simpl.
    + destruct (String.eqb k' k); reflexivity.
    + destruct (String.eqb_spec j k) as [->|D']; simpl.
      * destruct (String.eqb_spec k' k); [congruence|reflexivity].
      * exact IH.
Qed.

(** [last_with known k c]: [c] is the last block of [known] whose selector is [k]. *)
Definition last_with (known : list nat) (k : string) (c : nat) : Prop :=
  exists l l', known = l ++ c :: l' /\ selector c = k /\ forall b, In b l' -> selector b <> k.

Lemma branch_by_selector_ok known : (forall b, In b known -> valid b) ->
  exists d, branch_by_selector known = Ok d /\ forall k,
    match get_branch k d with
    | Some br => exists c, last_with known k c /\ valid c
        /\ (forall x, In x br <-> leads_to w c x) /\ (exists l, br = l ++ [c])
    | None => forall b, In b known -> selector b <> k
    end.
Proof.
  induction known as [|b known IH] using rev_ind; intros Hv.
  - exists []. split; auto. simpl. tauto.
  - destruct IH as [d [E C]]; [intros; apply Hv; apply in_or_app; auto|].
    assert (Vb : valid b) by (apply Hv; apply in_or_app; simpl; auto).
    destruct (secondary_branch_ok w WF default lock_flag LS set_order SO o OUT b Vb) as [br [ps [Eb [Cb [Sb _]]]]].
    unfold BranchModel.branch_by_selector in *. rewrite foldM_app, E. cbn [bind foldM]. rewrite Eb. cbn [bind fst].
    eexists. split; [reflexivity|]. intros k. rewrite get_set.
    destruct (String.eqb_spec (selector b) k) as [Ek|Ek].
    + exists b. split; [|auto]. exists known, []. auto.
    + specialize (C k). destruct (get_branch k d) as [br'|].
      * destruct C as [c [[l [l' [Q [Sc Nl]]]] R]]. exists c. split; [|auto]. exists l, (l' ++ [b]).
        split; [rewrite Q, <- app_assoc; reflexivity|]. split; auto.
        intros x I. apply in_app_or in I. destruct I as [I|[<-|[]]]; auto.
      * intros x I. apply in_app_or in I. destruct I as [I|[<-|[]]]; auto.
Qed.

Lemma last_with_unique known k c c' : last_with known k c -> last_with known k c' -> c = c'.
Proof.
  intros [l1 [r1 [E1 [S1 N1]]]] [l2 [r2 [E2 [S2 N2]]]]. rewrite E1 in E2. clear E1. revert l2 E2.
  induction l1 as [|x l1 IH]; intros [|y l2] E2; simpl in E2.
  - congruence.
  - inversion E2; subst. exfalso. apply (N1 c'); auto. apply in_or_app; simpl; auto.
  - inversion E2; subst. exfalso. apply (N2 c); auto. apply in_or_app; simpl; auto.
  - inversion E2. eauto.
Qed.

Lemma last_with_In known k c : last_with known k c -> In c known.
Proof. intros [l [l' [-> _]]]. apply in_or_app; simpl; auto. Qed.

Section G.
Variable G : nat -> option V.
Notation inv := (inv w default evaluate G).
Notation block_result := (block_result w G evaluate).
Notation explained := (explained w type_ok evaluate G).
Notation hvs := (have_values w G evaluate).

Lemma show_good known b s : (forall c, In c known -> valid c) -> inv s ->
  match show known b s with
  | Ok (y, s') => inv s' /\ grows w s s' /\ valid b
      /\ (exists c, last_with known (selector b) c /\ leads_to w c b)
      /\ (exists ys, block_result b ys /\ nth_error ys 0 = Some y)
  | Err e => (e = IndexError /\ ~ valid b)
      \/ (e = KeyError /\ forall c, In c known -> selector c <> selector b)
      \/ (exists c, last_with known (selector b) c /\ explained (leads_to w c) e)
      \/ (exists c, e = WorkflowError /\ last_with known (selector b) c
          /\ ((exists s1, activate_inputs false s = Ok s1 /\ ext w s s1 /\ inv s1
                /\ forall m, leads_to w c m -> ~ (ready w m s1 /\ (s_blk s1 m = false \/ ~ needed w m)))
              \/ (exists br s1 ev, (forall x, In x br <-> leads_to w c x) /\ br <> []
                   /\ evaluate_branch br s = Ok (s1, ev) /\ lookup b ev = None)))
      \/ (e = IndexError /\ block_result b [])
  end.
Proof.
  intros Hv I. unfold BranchModel.show. destruct (Nat.ltb_spec b (List.length (blocks w))) as [L|L]; [|left; split; [reflexivity|lia]].
  destruct (branch_by_selector_ok known Hv) as [d [Ed Cd]]. rewrite Ed. cbn [bind]. specialize (Cd (selector b)).
  destruct (get_branch (selector b) d) as [br|]; cbn [of_option bind]; [|right; left; auto].
  destruct Cd as [c [Lc [Vc [Cb [l Sb]]]]].
  pose proof (evaluate_branch_good w WF default lock_flag LS type_ok evaluate set_order SO G o OUT br s I) as EB.
  destruct (evaluate_branch br s) as [[s1 ev]|e] eqn:Er; cbn [bind fst snd].
  - destruct EB as [I1 [Gr [Sr [Kr _]]]]. destruct (lookup b ev) as [ys|] eqn:Lk; cbn [of_option bind].
    + destruct ys as [|y ys]; cbn [nth_error of_option bind].
      * right. right. right. right. split; auto.
      * split; auto. split; auto. split; auto. split.
        -- exists c. split; auto. apply Cb. apply Kr. congruence.
        -- exists (y :: ys). split; auto.
    + right. right. right. left. exists c. split; auto. split; auto. right. exists br, s1, ev. split; auto.
      split; auto. rewrite Sb. destruct l; discriminate.
  - destruct EB as [Q|[-> [s1 [A [I1 [E1 NR]]]]]].
    + right. right. left. exists c. split; auto. eapply explained_mono; [|exact Q]. intros n. apply Cb.
    + right. right. right. left. exists c. split; auto. split; auto. left. exists s1. split; auto.
      split; auto. split; auto. intros m Lm. apply NR. apply Cb. auto.
Qed.

(** A block shown from a complete state. *)
Lemma show_reach known b bl s s1 :
  (forall c, In c known -> valid c) -> inv s -> last_with known (selector b) b -> ~ needed w b ->
  activate_inputs false s = Ok s1 -> (forall v, In v (inputs w) -> s_var s1 v = true) ->
  (forall n, needed w n -> s_blk s n = true) ->
  acyclic_on w (leads_to w b) ->
  nth_error (blocks w) b = Some bl -> b_out bl <> [] ->
  (forall n bn xs, leads_to w b n \/ needed w n -> nth_error (blocks w) n = Some bn -> hvs (b_in bn) xs ->
     exists ys, evaluate n xs = Ok ys /\ List.length (b_out bn) <= List.length ys) ->
  (forall v x, In v (inputs w) -> G v = Some x -> type_ok v x = true) ->
  exists y s', show known b s = Ok (y, s') /\ exists ys, block_result b ys /\ nth_error ys 0 = Some y.
Proof.
  intros Hv I Lb Nb A Hin Hd [rank RK] Nbl Out Hev Ty.
  assert (L : valid b) by (apply nth_error_Some; congruence).
  unfold BranchModel.show. apply Nat.ltb_lt in L. rewrite L. apply Nat.ltb_lt in L.
  destruct (branch_by_selector_ok known Hv) as [d [Ed Cd]]. rewrite Ed. cbn [bind]. specialize (Cd (selector b)).
  destruct (get_branch (selector b) d) as [br|]; cbn [of_option bind];
    [|exfalso; exact (Cd b (last_with_In _ _ _ Lb) eq_refl)].
  destruct Cd as [c [Lc [Vc [Cb [l Sb]]]]].
  assert (c = b) by (eapply last_with_unique; eauto). subst c.
  assert (NN : forall m, In m br -> ~ needed w m).
  { intros m J Q. apply Cb in J. inversion J; subst; contradiction. }
  pose proof (evaluate_branch_reach w WF default lock_flag LS type_ok evaluate set_order SO G o OUT br (needed w)) as R.
  specialize (R (fun n J => leads_valid w b n L (proj1 (Cb n) J))).
  assert (CL : forall m n, In n br -> feeds w m n -> In m br \/ needed w m).
  { intros m n J F. destruct (secondary_ok w WF default lock_flag LS set_order SO o OUT m) as [cm [_ Q]].
    destruct (in_dec Nat.eq_dec m br) as [K|K]; auto. right.
    destruct (runtime_blocks_ok w WF default lock_flag LS set_order SO o OUT) as [rt [_ Cr]].
    destruct (in_dec Nat.eq_dec m rt) as [Z|Z]; [apply Cr; auto|]. exfalso. apply K. apply Cb.
    apply leads_step with n; auto; [|apply Cb; auto]. intros Q'. apply Z. apply Cr. auto. }
  specialize (R CL rank (fun m n F Jm Jn => RK m n F (proj1 (Cb m) Jm) (proj1 (Cb n) Jn))).
  assert (LONG : forall n b0 xs ys, In n br \/ needed w n -> nth_error (blocks w) n = Some b0 ->
     hvs (b_in b0) xs -> evaluate n xs = Ok ys -> List.length (b_out b0) <= List.length ys).
  { intros n bn xs ys Hn Nn HX Ev. assert (Hn' : leads_to w b n \/ needed w n) by (destruct Hn as [J|J]; [left; apply Cb|right]; exact J).
    destruct (Hev n bn xs Hn' Nn HX) as [ys' [E' Le]]. congruence. }
  specialize (R LONG s s1 I).
  assert (NE : br <> []) by (rewrite Sb; destruct l; discriminate).
  specialize (R NE A).
  assert (IO : inputs_on w br s1).
  { intros n v _ [bn [u [_ [_ [Iv _]]]]]. apply Hin. apply (inputs_In w WF). auto. }
  specialize (R IO Hd (fun m J => or_introl (NN m J))).
  pose proof (evaluate_branch_good w WF default lock_flag LS type_ok evaluate set_order SO G o OUT br s I) as EB.
  destruct (evaluate_branch br s) as [[s2 ev]|e]; cbn [bind fst snd].
  - assert (Jb : In b br) by (apply Cb; constructor).
    specialize (R b Jb). destruct (lookup b ev) as [ys|] eqn:Lk; [|congruence]. cbn [of_option bind].
    destruct EB as [_ [_ [Sr _]]]. assert (Rs := Sr b ys Lk). destruct Rs as [b' [xs [N' [HX Ev]]]].
    assert (b' = bl) by congruence. subst b'.
    assert (Le := LONG b bl xs ys (or_introl Jb) Nbl HX Ev).
    destruct ys as [|y ys]; [destruct (b_out bl); [congruence|simpl in Le; lia]|].
    cbn [nth_error of_option bind]. exists y, s2. split; auto. exists (y :: ys). split; auto.
  - exfalso. destruct R as [[_ [v [x [J [Gx T]]]]]|[n [bn [xs [Jn [Nn [HX Ev]]]]]]].
    + rewrite (Ty v x J Gx) in T. discriminate.
    + destruct (Hev n bn xs (or_introl (proj1 (Cb n) Jn)) Nn HX) as [ys [E' _]]. congruence.
Qed.

(** A block of the main branch cannot be shown once evaluated. *)
Lemma show_main known b s s1 :
  (forall c, In c known -> valid c) -> inv s -> last_with known (selector b) b -> needed w b ->
  activate_inputs false s = Ok s1 -> (forall n, needed w n -> s_blk s n = true) ->
  show known b s = Err WorkflowError.
Proof.
  intros Hv I Lb Nb A Hd. assert (L := Hv b (last_with_In _ _ _ Lb)).
  unfold BranchModel.show. apply Nat.ltb_lt in L. rewrite L. apply Nat.ltb_lt in L.
  destruct (branch_by_selector_ok known Hv) as [d [Ed Cd]]. rewrite Ed. cbn [bind]. specialize (Cd (selector b)).
  destruct (get_branch (selector b) d) as [br|]; cbn [of_option bind];
    [|exfalso; exact (Cd b (last_with_In _ _ _ Lb) eq_refl)].
  destruct Cd as [c [Lc [Vc [Cb _]]]].
  assert (c = b) by (eapply last_with_unique; eauto). subst c.
  unfold BranchModel.evaluate_branch. rewrite A. cbn [bind].
  pose proof (activate_inputs_inv w WF default lock_flag LS type_ok evaluate G s I) as AI. rewrite A in AI.
  destruct AI as [I1 E1].
  destruct (activable_ok w WF default lock_flag LS type_ok evaluate set_order SO G o OUT s1) as [l [El Cl]].
  rewrite El. cbn [bind].
  assert (X : existsb (fun b => memb Nat.eqb b l) br = false).
  { destruct (existsb (fun b => memb Nat.eqb b l) br) eqn:X; auto. exfalso.
    apply existsb_exists in X. destruct X as [m [J M]]. apply (memb_In _ nat_eqb_iff), Cl in M.
    apply Cb in J. apply (leads_needed w b m Nb) in J. subst m.
    destruct M as [_ [M|M]]; [|contradiction]. rewrite (e_blk _ _ _ E1), (Hd b Nb) in M. discriminate. }
  rewrite X. reflexivity.
Qed.

(** ** Sessions *)
Variable displays exports : list nat.
Hypothesis VD : forall c, In c displays -> valid c.
Hypothesis VE : forall c, In c exports -> valid c.
Notation serve := (serve w default lock_flag type_ok evaluate set_order displays exports selector).
Notation session := (session w default lock_flag type_ok evaluate set_order displays exports selector).

Definition shown_ok (shown : list (nat * V)) : Prop :=
  forall b y, In (b, y) shown -> exists ys, block_result b ys /\ nth_error ys 0 = Some y.

Definition request_agrees (q : request) : Prop :=
  match q with Do (AddInput i x) => forall v, nth_error (inputs w) i = Some v -> G v = Some x | _ => True end.

Lemma serve_good q s shown r : inv s -> shown_ok shown -> request_agrees q -> serve (s, shown) q = Ok r ->
  inv (fst r) /\ grows w s (fst r) /\ shown_ok (snd r).
Proof.
  intros I Sh A E.
  assert (SH : forall known b s0, (forall c, In c known -> valid c) -> inv s0 -> grows w s s0 ->
     forall y s', show known b s0 = Ok (y, s') -> inv s' /\ grows w s s' /\ shown_ok (shown ++ [(b, y)])).
  { intros known b s0 Hv I0 Gr0 y s' Es. pose proof (show_good known b s0 Hv I0) as SG. rewrite Es in SG.
    destruct SG as [I' [Gr [_ [_ R]]]]. split; auto. split; [eapply grows_trans; eauto|].
    intros b' y' J. apply in_app_or in J. destruct J as [J|[J|[]]]; [apply Sh; auto|]. inversion J; subst. exact R. }
  destruct q as [a|b|b]; cbn [BranchModel.serve fst snd] in E.
  - pose proof (act_good w WF default lock_flag LS type_ok evaluate set_order SO G o OUT a s I) as AG.
    assert (agrees w G a) as Aa by (destruct a; simpl in *; auto). specialize (AG Aa).
    destruct (act w default lock_flag type_ok evaluate set_order s a) as [s'|e]; cbn [bind] in E; [|discriminate].
    inversion E; subst. simpl. destruct AG. auto.
  - unfold block_display in E.
    pose proof (activate_inputs_inv w WF default lock_flag LS type_ok evaluate G s I) as AI.
    destruct (activate_inputs false s) as [s1|e]; cbn [bind] in E; [|discriminate]. destruct AI as [I1 E1].
    destruct (show displays b s1) as [[y s']|e] eqn:Es; cbn [bind] in E; [|discriminate]. inversion E; subst. simpl.
    apply (SH displays b s1 VD I1 (ext_grows _ _ _ E1) y s' Es).
  - unfold export in E.
    destruct (show exports b s) as [[y s']|e] eqn:Es; cbn [bind] in E; [|discriminate]. inversion E; subst. simpl.
    apply (SH exports b s VE I (grows_refl _ _) y s' Es).
Qed.

Lemma serves_good qs : forall s shown r, inv s -> shown_ok shown -> (forall q, In q qs -> request_agrees q) ->
  foldM serve qs (s, shown) = Ok r -> inv (fst r) /\ grows w s (fst r) /\ shown_ok (snd r).
Proof.
  induction qs as [|q qs IH]; intros s shown r I Sh A E; cbn [foldM] in E.
  - inversion E; subst. split; auto. split; auto. apply grows_refl.
  - destruct (serve (s, shown) q) as [[s1 sh1]|e] eqn:Eq; cbn [bind] in E; [|discriminate].
    destruct (serve_good q s shown _ I Sh (A q (or_introl eq_refl)) Eq) as [I1 [Gr1 S1]].
    destruct (IH s1 sh1 r I1 S1 (fun q' J => A q' (or_intror J)) E) as [I2 [Gr2 S2]].
    split; auto. split; auto. eapply grows_trans; eauto.
Qed.

Lemma session_good iv qs r :
  starts_with w default G iv -> (forall q, In q qs -> request_agrees q) ->
  session iv qs = Ok r -> inv (fst r) /\ shown_ok (snd r).
Proof.
  intros ST A E. unfold BranchModel.session in E.
  pose proof (start_run_good w WF default lock_flag LS type_ok evaluate G o iv ST) as S0.
  destruct (start_run w default lock_flag type_ok iv) as [s0|e]; cbn [bind] in E; [|discriminate].
  destruct S0 as [I0 _].
  destruct (serves_good qs s0 [] r I0) as [I1 [_ S1]]; auto. intros b y [].
Qed.
End G.

(** ** Display of a step *)
Section Same.
Variables (G G' : nat -> option V) (b : nat).
Hypothesis SAME : forall v n, depends_on w b n -> reads_input w n v -> G v = G' v.

Definition relevant (v : nat) : Prop :=
  exists n bn, depends_on w b n /\ nth_error (blocks w) n = Some bn
    /\ (In v (b_in bn) \/ In v (b_out bn) \/ exists u, In u (b_in bn) /\ In (v, u) (pipes w)).

Scheme hv_ind2 := Induction for has_value Sort Prop
  with hvs_ind2 := Induction for have_values Sort Prop.

Lemma hv_same v x : has_value w G evaluate v x -> relevant v -> has_value w G' evaluate v x.
Proof.
  intros H. apply (hv_ind2 V w G evaluate
    (fun v x _ => relevant v -> has_value w G' evaluate v x)
    (fun vs xs _ => (forall v, In v vs -> relevant v) -> have_values w G' evaluate vs xs)) with (n := v) (y := x); auto.
  - intros u y Iu Gu [n [bn [D [N R]]]]. apply hv_input; auto. rewrite <- (SAME u n); auto.
    exists bn. destruct R as [R|[R|[t [It P]]]].
    + exists u. auto.
    + exfalso. destruct Iu as [[b' [Ib' [J' _]]]|[_ J']].
      * eapply (in_out_disjoint w WF b' bn); eauto. eapply nth_error_In; eauto.
      * apply J'. apply in_block_variables. exists bn. split; auto. eapply nth_error_In; eauto.
    + exists t. auto.
  - intros q t y P Hq IH [n [bn [D [N R]]]]. apply hv_pipe with q; auto. apply IH.
    exists n, bn. split; auto. split; auto. right. right. destruct R as [R|[R|[u [Iu Pu]]]].
    + exists t. auto.
    + exfalso. destruct (wf_target w WF _ _ P) as [b' [Ib' J']].
      eapply (in_out_disjoint w WF b' bn); eauto. eapply nth_error_In; eauto.
    + exfalso. destruct (wf_target w WF _ _ P) as [b' [Ib' J']]. exact (wf_source w WF _ _ b' Pu Ib' J').
  - intros m bm xs ys j u y Nm Hx IH Ev Nj Ny [n [bn [D [N R]]]].
    assert (Ju := nth_error_In _ _ Nj).
    assert (Dm : depends_on w b m).
    { destruct R as [R|[R|[t [It P]]]].
      - exfalso. eapply (in_out_disjoint w WF bn bm); eauto; eapply nth_error_In; eauto.
      - assert (m = n) by (eapply (ports_nth w WF m n bm bn u); eauto; apply in_or_app; auto). subst; auto.
      - apply depends_step with n; auto. exists bm, bn, u, t. auto 10. }
    apply hv_block with m bm xs ys j; auto. apply IH. intros z Iz. exists m, bm. auto.
  - intros _. constructor.
  - intros u y us xs Hu IHu Hus IHus R. constructor; [apply IHu; apply R; simpl; auto|apply IHus; intros; apply R; simpl; auto].
Qed.
End Same.

Section Step.
Variable user : list (nat * V).
Hypothesis ND : NoDup (map fst user).
Notation G := (given_by w default lock_flag user).
Notation hv := (has_value w G evaluate).
Notation hvs := (have_values w G evaluate).
Notation inv := (inv w default evaluate G).

Lemma step_state :
  match (let* iv := input_values w default lock_flag user in start_run w default lock_flag type_ok iv) with
  | Ok s => inv s /\ (forall n, s_blk s n = false)
      /\ (forall i v, nth_error (inputs w) i = Some v -> G v <> None -> s_iv s i <> None)
  | Err e => (e = IndexError /\ exists i x, In (i, x) user /\ List.length (inputs w) <= i)
      \/ (e = TypeError /\ exists v x, In v (inputs w) /\ G v = Some x /\ type_ok v x = false)
  end.
Proof.
  pose proof (input_values_spec w WF default lock_flag LS user ND) as IV.
  destruct (input_values w default lock_flag user) as [iv|e]; cbn [bind]; [|left; auto].
  pose proof (given_starts w default lock_flag user iv IV) as ST.
  unfold start_run.
  pose proof (activate_inputs_inv w WF default lock_flag LS type_ok evaluate G _ (initial_inv w default type_ok evaluate G o iv ST)) as S0.
  unfold initial in S0. destruct (activate_inputs false _) as [s0|e]; [|right; auto].
  destruct S0 as [I0 E0]. split; auto. split.
  - intros n. rewrite (e_blk _ _ _ E0). reflexivity.
  - intros i v N Q. apply (e_iv _ _ _ E0). simpl. rewrite (IV i v N). auto.
Qed.

Lemma port_output v b k : variable_indices w v = Ok (APort b true k) ->
  exists bl, nth_error (blocks w) b = Some bl /\ nth_error (b_out bl) k = Some v.
Proof.
  unfold variable_indices. destruct (find_port 0 (blocks w) v) as [a|] eqn:F.
  - intros E. inversion E; subst. apply find_port_some in F. destruct F as [n [bl [d [j [Ea [N J]]]]]].
    inversion Ea; subst. exists bl. auto.
  - destruct (index_of _ _ _); discriminate.
Qed.

Lemma step_good v : match step_display v user with
  | Ok y => hv v y
  | Err e =>
      (e = WorkflowError /\ ~ In v (variables w))
      \/ (e = ValueError /\ exists b, In b (blocks w) /\ In v (b_in b))
      \/ (e = TypeError /\ In v (nonblock_variables w))
      \/ exists b bl k, nth_error (blocks w) b = Some bl /\ nth_error (b_out bl) k = Some v /\
         ((e = IndexError /\ exists i x, In (i, x) user /\ List.length (inputs w) <= i)
          \/ explained w type_ok evaluate G (depends_on w b) e
          \/ e = WorkflowError \/ e = KeyError
          \/ (e = IndexError /\ exists ys, block_result w G evaluate b ys /\ List.length ys <= k))
  end.
Proof.
  unfold BranchModel.step_display.
  destruct (variable_indices w v) as [[n|b [|] k]|e] eqn:EI; cbn [bind].
  - right. right. left. split; auto. unfold variable_indices in EI. destruct (find_port 0 (blocks w) v) as [a|] eqn:F.
    + inversion EI; subst. apply find_port_some in F. destruct F as [m [bl [d [j [Ea _]]]]]. discriminate.
    + destruct (index_of _ _ _) eqn:J; [|discriminate]. apply (index_of_Some _ nat_eqb_iff) in J.
      destruct J as [J _]. rewrite (get_upstream_nbv_free w WF) in J; [eapply nth_error_In; eauto|].
      intros Q. apply in_map_iff in Q. destruct Q as [[q t] [Qt P]]. simpl in Qt. subst t.
      destruct (wf_target w WF _ _ P) as [b' [Ib' J']]. rewrite find_port_none in F. apply (F b' Ib'). apply in_or_app. auto.
  - destruct (port_output v b k EI) as [bl [N Nk]].
    assert (L : valid b) by (apply nth_error_Some; congruence).
    destruct (upstream_branch_ok w WF default lock_flag LS set_order SO b L) as [br [Eb [Cb [l Sb]]]]. rewrite Eb. cbn [bind].
    pose proof step_state as SS.
    destruct (input_values w default lock_flag user) as [iv|e]; cbn [bind] in SS |- *.
    2:{ right. right. right. exists b, bl, k. split; auto. split; auto. destruct SS as [SS|SS]; auto. right. left. left. exact SS. }
    destruct (start_run w default lock_flag type_ok iv) as [s|e]; cbn [bind].
    2:{ right. right. right. exists b, bl, k. split; auto. split; auto. destruct SS as [SS|SS]; auto. right. left. left. exact SS. }
    destruct SS as [I [B0 Iv]].
    pose proof (evaluate_branch_good w WF default lock_flag LS type_ok evaluate set_order SO G o OUT br s I) as EB.
    destruct (evaluate_branch br s) as [[s1 ev]|e]; cbn [bind fst snd].
    + destruct EB as [_ [_ [Sr _]]]. destruct (lookup b ev) as [ys|] eqn:Lk; cbn [of_option bind].
      2:{ right. right. right. exists b, bl, k. auto 10. }
      assert (R := Sr b ys Lk). destruct (nth_error ys k) as [y|] eqn:Y; cbn [of_option].
      * destruct R as [b' [xs [N' [HX Ev]]]]. assert (b' = bl) by congruence. subst b'. eapply hv_block; eauto.
      * right. right. right. exists b, bl, k. split; auto. split; auto. right. right. right. right. split; auto.
        exists ys. split; auto. apply nth_error_None. auto.
    + right. right. right. exists b, bl, k. split; auto. split; auto.
      destruct EB as [Q|[-> _]]; [|auto]. right. left. eapply explained_mono; [|exact Q]. intros n. apply Cb.
  - right. left. split; auto. unfold variable_indices in EI. destruct (find_port 0 (blocks w) v) as [a|] eqn:F.
    + inversion EI; subst. apply find_port_some in F. destruct F as [n [bl [d [j [Ea [N J]]]]]].
      inversion Ea; subst. exists bl. split; [eapply nth_error_In; eauto|eapply nth_error_In; exact J].
    + destruct (index_of _ _ _); discriminate.
  - left. destruct (in_dec Nat.eq_dec v (variables w)) as [J|J].
    + destruct (indices_exists w WF v J) as [a [Ea _]]. congruence.
    + unfold variable_indices in EI. destruct (find_port 0 (blocks w) v); [discriminate|].
      destruct (index_of _ _ _); inversion EI. auto.
Qed.

Lemma step_reach b bl k v :
  nth_error (blocks w) b = Some bl -> nth_error (b_out bl) k = Some v ->
  (forall i x, In (i, x) user -> i < List.length (inputs w)) ->
  acyclic_on w (depends_on w b) ->
  (forall u n, depends_on w b n -> reads_input w n u -> G u <> None) ->
  (forall u x, In u (inputs w) -> G u = Some x -> type_ok u x = true) ->
  (forall n bn xs, depends_on w b n -> nth_error (blocks w) n = Some bn -> hvs (b_in bn) xs ->
     exists ys, evaluate n xs = Ok ys /\ List.length (b_out bn) <= List.length ys) ->
  exists y, step_display v user = Ok y /\ hv v y.
Proof.
  intros N Nk Hu [rank RK] Hg Ty Hev.
  pose proof (step_good v) as SG.
  assert (L : valid b) by (apply nth_error_Some; congruence).
  unfold BranchModel.step_display in *.
  rewrite (indices_port w WF b bl true k v N Nk) in *. cbn [bind] in *.
  destruct (upstream_branch_ok w WF default lock_flag LS set_order SO b L) as [br [Eb [Cb [l Sb]]]].
  rewrite Eb in *. cbn [bind] in *.
  pose proof step_state as SS.
  destruct (input_values w default lock_flag user) as [iv|e]; cbn [bind] in *.
  2:{ exfalso. destruct SS as [[_ [i [x [J Lx]]]]|[_ [u [x [J [Gx T]]]]]].
      - specialize (Hu i x J). lia.
      - rewrite (Ty u x J Gx) in T. discriminate. }
  destruct (start_run w default lock_flag type_ok iv) as [s|e]; cbn [bind] in *.
  2:{ exfalso. destruct SS as [[_ [i [x [J Lx]]]]|[_ [u [x [J [Gx T]]]]]].
      - specialize (Hu i x J). lia.
      - rewrite (Ty u x J Gx) in T. discriminate. }
  destruct SS as [I [B0 Iv]].
  pose proof (activate_inputs_good w WF default lock_flag LS type_ok evaluate G false s (i_good _ _ _ _ _ I) (i_def _ _ _ _ _ I)) as AG.
  destruct (activate_inputs false s) as [s1|e] eqn:A.
  2:{ exfalso. destruct AG as [[_ [u [x [J [Gx T]]]]]|[_ [Q _]]]; [|discriminate].
      rewrite (Ty u x J Gx) in T. discriminate. }
  destruct AG as [_ [_ [_ [_ ON]]]].
  assert (IO : inputs_on w br s1).
  { intros n u J RI. apply Cb in J.
    assert (Iu : In u (inputs w)) by (apply (inputs_In w WF); destruct RI as [? [? [_ [_ [Q _]]]]]; exact Q).
    apply In_nth_error in Iu. destruct Iu as [i Ni]. apply (ON i u Ni). left. apply (Iv i u Ni). exact (Hg u n J RI). }
  pose proof (evaluate_branch_reach w WF default lock_flag LS type_ok evaluate set_order SO G o OUT br (fun _ => False)
    (fun n J => depends_valid w b n L (proj1 (Cb n) J))
    (fun m n J F => or_introl (proj2 (Cb m) (depends_step w b m n F (proj1 (Cb n) J))))
    rank (fun m n F Jm Jn => RK m n F (proj1 (Cb m) Jm) (proj1 (Cb n) Jn))) as R.
  assert (LONG : forall n b0 xs ys, In n br \/ False -> nth_error (blocks w) n = Some b0 ->
     hvs (b_in b0) xs -> evaluate n xs = Ok ys -> List.length (b_out b0) <= List.length ys).
  { intros n bn xs ys [J|[]] Nn HX Ev. destruct (Hev n bn xs (proj1 (Cb n) J) Nn HX) as [ys' [E' Le]]. congruence. }
  specialize (R LONG s s1 I).
  assert (NE : br <> []) by (rewrite Sb; destruct l; discriminate).
  specialize (R NE A IO (fun m (F : False) => match F with end) (fun m J => or_intror (B0 m))).
  pose proof (evaluate_branch_good w WF default lock_flag LS type_ok evaluate set_order SO G o OUT br s I) as EB.
  destruct (evaluate_branch br s) as [[s2 ev]|e]; cbn [bind fst snd] in *.
  - assert (Jb : In b br) by (apply Cb; constructor).
    specialize (R b Jb). destruct (lookup b ev) as [ys|] eqn:Lk; [|congruence]. cbn [of_option bind] in *.
    destruct EB as [_ [_ [Sr _]]]. destruct (Sr b ys Lk) as [b' [xs [N' [HX Ev]]]].
    assert (b' = bl) by congruence. subst b'.
    assert (Le := LONG b bl xs ys (or_introl Jb) N HX Ev).
    assert (k < List.length (b_out bl)) by (apply nth_error_Some; congruence).
    destruct (nth_error ys k) as [y|] eqn:Y; [|apply nth_error_None in Y; lia].
    exists y. split; auto.
  - exfalso. destruct R as [[_ [u [x [J [Gx T]]]]]|[n [bn [xs [Jn [Nn [HX Ev]]]]]]].
    + rewrite (Ty u x J Gx) in T. discriminate.
    + destruct (Hev n bn xs (proj1 (Cb n) Jn) Nn HX) as [ys [E' _]]. congruence.
Qed.
End Step.
End B.

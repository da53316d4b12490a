(** Lemmas on the scripts of runs: which inputs they name, which values they write. *)
From Coq Require Import ZArith Bool String Ascii Arith Lia List.
From Verif Require Import Base BaseProofs ExecModel ExecSpec ExecStruct WiringModel WiringSpec WiringProofs VariablesModel
  ScriptModel ScriptSpec ScriptProofs ScriptExec ScriptGen RunScriptModel RunScriptText RunScriptSpec.
Import ListNotations.
Open Scope string_scope.
Open Scope list_scope.

Section P.
Context {A : Type}.
Variable type_name : A -> string.
Variable params : cls -> string -> list (variable (value A) string).
Variable text : string -> value A.
Notation wf := (@wf (value A)).
Notation part := (@part (value A)).
Notation variable := (variable (value A) string).
Notation sound := (sound params text).
Notation fits := (fits params text).

(** ** Inputs named *)
Lemma lock_lines x (vs : list variable) : forall k0 lines, lock_script x k0 vs = Ok lines ->
  forall l, In l lines <-> exists k v, nth_error vs k = Some v /\ v_lock v = true /\ l = SLock x (k0 + k).
Proof.
  induction vs as [|v vs IH]; intros k0 lines E l; cbn [lock_script] in E.
  - inversion E; subst. split; [intros []|]. intros [[|k] [v [N _]]]; discriminate.
  - destruct (is_locked v) as [b|] eqn:B; [|discriminate]. cbn [bind] in E.
    destruct (lock_script x (S k0) vs) as [r|] eqn:R; [|discriminate]. cbn [bind] in E.
    assert (b = v_lock v).
    { unfold is_locked in B. destruct (v_lock v), (v_default v); inversion B; auto. }
    subst b. specialize (IH _ _ R l).
    assert (T : In l r <-> exists k y, nth_error (v :: vs) (S k) = Some y /\ v_lock y = true /\ l = SLock x (k0 + S k)).
    { rewrite IH. split; intros [k [y [N [Lk ->]]]]; exists k, y; cbn [nth_error] in *; rewrite Nat.add_succ_r in *; auto. }
    inversion E; subst lines. clear E. split.
    + intros I. assert (J : (v_lock v = true /\ l = SLock x k0) \/ In l r) by (destruct (v_lock v); [destruct I; auto|auto]).
      destruct J as [[Lk ->]|J]; [exists 0, v; rewrite Nat.add_0_r; auto|]. apply T in J. destruct J as [k [y J]]. exists (S k), y. exact J.
    + intros [[|k] [y [N [Lk ->]]]].
      * inversion N; subst y. rewrite Lk, Nat.add_0_r. left. reflexivity.
      * assert (J : In (SLock x (k0 + S k)) r) by (apply T; eauto). destruct (v_lock v); [right|]; exact J.
Qed.

Definition hits (body : list stmt) (j i : nat) : Prop := exists l, In l body /\ hit l j i.
Definition part_named (p : part) (j i : nat) : Prop :=
  match p with
  | Part (KConf _) _ _ => False
  | Part (KWorkflow w) _ _ => named w j i
  | Part (KForEach w _ _ _) _ _ => named w j i
  end.

Definition wf_hits (w : wf) : Prop := sound w -> forall n imps body, wf_script n w = Ok (imps, body) ->
  Forall fed_by_output body /\ forall j i, hits body j i <-> named w j i.
Definition part_hits (p : part) : Prop := forall b, fits p b -> forall n imps before fa,
  part_script n p (length (b_in b)) = Ok (imps, before, fa) ->
  Forall fed_by_output before /\ forall j i, hits before j i <-> part_named p j i.

Lemma hits_app a b j i : hits (a ++ b) j i <-> hits a j i \/ hits b j i.
Proof.
  unfold hits. split.
  - intros [l [I H]]. apply in_app_or in I. destruct I; [left|right]; eauto.
  - intros [[l [I H]]|[l [I H]]]; exists l; split; auto; apply in_or_app; auto.
Qed.
Lemma hits_cons x b j i : hits (x :: b) j i <-> hit x j i \/ hits b j i.
Proof.
  unfold hits. split.
  - intros [l [[<-|I] H]]; eauto.
  - intros [H|[l [I H]]]; [exists x|exists l]; simpl; auto.
Qed.
Lemma hits_nil j i : ~ hits [] j i.
Proof. intros [l [[] _]]. Qed.

Lemma blocks_hits info n ps : Forall part_hits ps -> forall bs i0 imps body, all2 fits ps bs ->
  blocks_script (part_script n) n info i0 ps bs = Ok (imps, body) ->
  Forall fed_by_output body /\ forall j i, hits body j i <->
    (exists k b v, j = i0 + k /\ nth_error bs k = Some b /\ nth_error (b_in b) i = Some v /\ v_lock (info v) = true)
    \/ exists p, In p ps /\ part_named p j i.
Proof.
  intros FH. induction FH as [|p ps Hp FH IH]; intros [|b bs] i0 imps body F E; try (destruct F; fail).
  - inversion E; subst. split; [constructor|]. intros j i. split; [intros H; destruct (hits_nil _ _ H)|].
    intros [[k [b [v [_ [N _]]]]]|[p [[] _]]]. destruct k; discriminate.
  - destruct F as [F Fs].
    change (blocks_script (part_script n) n info i0 (p :: ps) (b :: bs)) with
        (let* s := part_script n p (length (b_in b)) in
         let* locks := lock_script (Sub n (NBlock i0)) 0 (map info (b_in b)) in
         let* r := blocks_script (part_script n) n info (S i0) ps bs in
         Ok (fst (fst s) ++ fst r, snd (fst s) ++ SBlock (Sub n (NBlock i0)) (fst (snd s)) (snd (snd s)) :: locks ++ snd r)) in E.
    destruct (part_script n p (length (b_in b))) as [[[im1 before] fa]|] eqn:Ep; [|discriminate]. cbn [bind fst snd] in E.
    destruct (lock_script _ 0 _) as [lk|] eqn:El; [|discriminate]. cbn [bind] in E.
    destruct (blocks_script _ n info (S i0) ps bs) as [[im2 b2]|] eqn:Eb; [|discriminate]. cbn [bind fst snd] in E.
    inversion E; subst. clear E. destruct (Hp b F n _ _ _ Ep) as [F1 H1]. destruct (IH bs (S i0) im2 b2 Fs Eb) as [F2 H2].
    assert (LL := lock_lines _ _ _ _ El).
    assert (HL : forall j i, hits lk j i <-> j = i0 /\ exists v, nth_error (b_in b) i = Some v /\ v_lock (info v) = true).
    { intros j i. split.
      - intros [l [I H]]. apply LL in I. destruct I as [k [v [N [Lk ->]]]]. destruct H as [[m Q] Ek]. inversion Q; subst. split; auto.
        rewrite nth_error_map in N. destruct (nth_error (b_in b) (0 + k)) as [u|] eqn:Nu; [|simpl in Nu; rewrite Nu in N; discriminate].
        simpl in Nu. rewrite Nu in N. inversion N; subst. simpl. eauto.
      - intros [-> [v [N Lk]]]. exists (SLock (Sub n (NBlock i0)) i). split; [|split; eauto]. apply LL. exists i, (info v).
        rewrite nth_error_map, N. auto. }
    split.
    + apply Forall_app. split; auto. constructor; [exact I|]. apply Forall_app. split; auto.
      apply Forall_forall. intros l I. apply LL in I. destruct I as [k [v [_ [_ ->]]]]. exact Logic.I.
    + intros j i. rewrite hits_app, hits_cons, hits_app, HL, H1, H2. cbn [hit]. split.
      * intros [H|[[]|[[-> [v [N Lk]]]|[[k [c [v [-> H]]]]|[q [I H]]]]]].
        -- right. exists p. simpl. auto.
        -- left. exists 0, b, v. rewrite Nat.add_0_r. auto.
        -- left. exists (S k), c, v. rewrite Nat.add_succ_r. auto.
        -- right. exists q. simpl. auto.
      * intros [[[|k] [c [v [-> [N H]]]]]|[q [[<-|I] H]]]; auto.
        -- inversion N; subst c. right. right. left. rewrite Nat.add_0_r. eauto.
        -- right. right. right. left. exists k, c, v. rewrite Nat.add_succ_r. auto.
        -- right. right. right. right. eauto.
Qed.

Lemma pipes_hits n d lines : well_formed d -> pipes_script n d = Ok lines ->
  Forall fed_by_output lines /\ forall j i, hits lines j i <->
    exists b v s, nth_error (blocks d) j = Some b /\ nth_error (b_in b) i = Some v /\ In (s, v) (pipes d).
Proof.
  intros WF E. unfold pipes_script in E.
  destruct (mapM _ (enumerate (pipes d))) as [l|] eqn:M; [|discriminate]. cbn [bind] in E. inversion E; subst lines. clear E.
  apply mapM_ok_inv in M.
  assert (G : forall ips l, incl (map snd ips) (pipes d) -> Forall2 (fun (ip : nat * (nat * nat)) y => (let* a := variable_indices d (fst (snd ip)) in
                    let* b := variable_indices d (snd (snd ip)) in
                    Ok (SPipe (Sub n (NPipe (fst ip))) (source_script n a) (target_script n b))) = Ok y) ips l ->
     Forall fed_by_output l /\ forall j i, hits l j i <-> exists b v s, nth_error (blocks d) j = Some b /\ nth_error (b_in b) i = Some v /\ In (s, v) (map snd ips)).
  { clear M l. induction ips as [|[k [s t]] ips IH]; intros l Inc F2; inversion F2 as [|? y ? l' Ey F2']; subst.
    - split; [constructor|]. intros j i. split; [intros H; destruct (hits_nil _ _ H)|intros [b [v [s [_ [_ []]]]]]].
    - destruct (IH l' (fun x J => Inc x (or_intror J)) F2') as [Fl Hl]. cbn [fst snd] in Ey.
      destruct (variable_indices d s) as [a|] eqn:Es; [|discriminate]. cbn [bind] in Ey.
      destruct (target_address d WF (fun v => v) s t (Inc _ (or_introl eq_refl))) as [a' [Et [_ [b [k' ->]]]]]. rewrite Et in Ey. cbn [bind] in Ey.
      inversion Ey; subst y. clear Ey. split.
      + constructor; auto. destruct a; exact I.
      + intros j i. rewrite hits_cons, Hl. cbn [hit target_script map snd].
        destruct (wf_target d WF s t (Inc _ (or_introl eq_refl))) as [bl [Ib It]]. apply In_nth_error in Ib, It.
        destruct Ib as [j0 Nb]. destruct It as [i0 Ni]. rewrite (indices_port d WF j0 bl false i0 t Nb Ni) in Et. inversion Et; subst b k'. split.
        * intros [[[m Q] ->]|[b [v [u [N1 [N2 I]]]]]].
          -- inversion Q; subst j0. exists bl, t, s. simpl. auto.
          -- exists b, v, u. simpl. auto.
        * intros [b [v [u [N1 [N2 [I|I]]]]]].
          -- inversion I; subst u v. left. assert (Q := indices_port d WF j b false i t N1 N2).
             rewrite (indices_port d WF j0 bl false i0 t Nb Ni) in Q. inversion Q; subst. eauto.
          -- right. eauto 7. }
  destruct (G (enumerate (pipes d)) l) as [Fl Hl]; [rewrite enumerate_snd; apply incl_refl|exact M|].
  rewrite enumerate_snd in Hl. split.
  - apply Forall_app. split; auto. repeat constructor.
  - intros j i. rewrite hits_app, Hl, hits_cons. cbn [hit]. pose proof (hits_nil j i). tauto.
Qed.

Lemma wf_hits_all w : wf_hits w.
Proof.
  revert w. apply (wf_ind' wf_hits part_hits).
  - intros d info ps doc nm FH [WF [O [F _]]] n imps body E. destruct (output d) as [o|] eqn:Eo; [|congruence].
    rewrite (generated n d info ps doc nm o Eo) in E. destruct (variable_indices d o) as [a|]; [|discriminate]. cbn [bind] in E.
    destruct (blocks_script (part_script n) n info 0 ps (blocks d)) as [[im bb]|] eqn:B; [|discriminate]. cbn [bind fst snd] in E.
    destruct (pipes_script n d) as [pl|] eqn:Pp; [|discriminate]. cbn [bind] in E.
    destruct a as [|i0 side k0]; [discriminate|]. cbn [bind fst snd] in E. inversion E; subst. clear E.
    destruct (blocks_hits info n ps FH _ 0 _ _ F B) as [F1 H1]. destruct (pipes_hits n d pl WF Pp) as [F2 H2].
    assert (Nv : forall l, In l (nbvs_script n (Wf d info ps doc nm)) -> exists x s, l = SVar x s).
    { intros l I. apply in_map_iff in I. destruct I as [kv [<- _]]. eauto. }
    split.
    + constructor; [exact I|]. apply Forall_app. split; auto. constructor; [exact I|]. apply Forall_app. split.
      * apply Forall_forall. intros l J. destruct (Nv l J) as [x [s ->]]. exact I.
      * apply Forall_app. split; auto. repeat constructor.
    + intros j i. rewrite hits_cons, hits_app, hits_cons, !hits_app, hits_cons, H1, H2. cbn [hit].
      assert (Hn : ~ hits (nbvs_script n (Wf d info ps doc nm)) j i).
      { intros [l [J H]]. destruct (Nv l J) as [x [s ->]]. exact H. }
      pose proof (hits_nil j i) as H0. split.
      * intros [[]|[[[k [b [v [-> [N1 [N2 Lk]]]]]]|[p [Ip Hp]]]|[[]|[X|[[b [v [s [N1 [N2 J]]]]]|[[]|X]]]]]]; try contradiction.
        -- apply (named_here (Wf d info ps doc nm) (0 + k) i b v N1 N2). left. exact Lk.
        -- destruct p as [[c|w'|w' bn bp k] pn pp]; cbn [part_named] in Hp; [contradiction| |].
           ++ eapply named_workflow; cbn [parts]; eauto.
           ++ eapply named_foreach; cbn [parts]; eauto.
        -- apply (named_here (Wf d info ps doc nm) j i b v N1 N2). right. exists s. exact J.
      * intros H. inversion H as [w0 j0 i1 b v N1 N2 Q|w0 w' pn pp j0 i1 Ip Hp|w0 w' bn bp k pn pp j0 i1 Ip Hp]; subst; cbn [diagram ScriptModel.info parts] in *.
        -- destruct Q as [Lk|[s J]]; [right; left; left; exists j, b, v; auto|right; right; right; right; left; exists b, v, s; auto].
        -- right. left. right. eexists. split; [exact Ip|exact Hp].
        -- right. left. right. eexists. split; [exact Ip|exact Hp].
  - intros c nm pos b Fb n imps before fa E. cbn [part_script] in E. destruct (conf_script c (length (b_in b)) nm pos) as [s|]; [|discriminate].
    cbn [bind] in E. inversion E; subst. split; [constructor|]. intros j i. split; [intros H; destruct (hits_nil _ _ H)|intros []].
  - intros w nm pos IH b [D [S _]] n imps before fa E.
    change (part_script n (Part (KWorkflow w) nm pos) (length (b_in b))) with (let* s := wf_script (Datatypes.S n) w in
      Ok (fst s ++ [in_blocks "WorkflowBlock"], snd s,
          ("WorkflowBlock", ("workflow", EName (Sub (Datatypes.S n) NWorkflow)) :: base_script nm pos))) in E.
    destruct (wf_script (Datatypes.S n) w) as [[im bd]|] eqn:Ew; [|discriminate]. cbn [bind fst snd] in E. inversion E; subst.
    exact (IH S _ _ _ Ew).
  - intros w bn bp k nm pos IH b [D [D' [S _]]] n imps before fa E.
    change (part_script n (Part (KForEach w bn bp k) nm pos) (length (b_in b))) with (let* s := wf_script (Datatypes.S n) w in
      Ok (fst s ++ [in_blocks "WorkflowBlock"] ++ [in_blocks "ForEach"],
        snd s ++ [SBlock NWfblock "WorkflowBlock" (("workflow", EName (Sub (Datatypes.S n) NWorkflow)) :: base_script bn bp)],
        ("ForEach", ("workflow_block", EName NWfblock) :: ("iter_input_index", ENat k) :: base_script nm pos))) in E.
    destruct (wf_script (Datatypes.S n) w) as [[im bd]|] eqn:Ew; [|discriminate]. cbn [bind fst snd] in E. inversion E; subst.
    destruct (IH S _ _ _ Ew) as [F1 H1]. split; [apply Forall_app; split; auto; repeat constructor|].
    intros j i. rewrite hits_app, H1, hits_cons. cbn [hit part_named]. pose proof (hits_nil j i). tauto.
Qed.

Definition is_named (body : list stmt) (j i : nat) : bool := existsb (fun l => contains (input_key j i) (line_text l)) body.
Lemma is_named_spec w n imps body : sound w -> wf_script n w = Ok (imps, body) -> forall j i,
  is_named body j i = true <-> named w j i.
Proof.
  intros S E j i. destruct (wf_hits_all w S n imps body E) as [F H]. rewrite <- H. unfold is_named, hits. rewrite existsb_exists.
  rewrite Forall_forall in F. split; intros [l [I Q]]; exists l; split; auto; apply (line_hit l j i (F l I)); exact Q.
Qed.

(** ** Inputs and their values *)
Definition free_ports (d : workflow) : list (nat * nat * nat) :=
  filter (fun p => negb (has_ancestor d (snd p))) (block_ports d).

Lemma block_ports_In d j i v : In (j, i, v) (block_ports d) <->
  exists b, nth_error (blocks d) j = Some b /\ nth_error (b_in b) i = Some v.
Proof.
  unfold block_ports. rewrite in_flat_map. split.
  - intros [[j' b] [I J]]. cbn [fst snd] in J. apply in_map_iff in J. destruct J as [[i' v'] [E J]]. inversion E; subst.
    apply enumerate_In in I, J. eauto.
  - intros [b [N M]]. exists (j, b). split; [apply enumerate_In; exact N|]. apply in_map_iff. exists (i, v). split; auto. apply enumerate_In. exact M.
Qed.
Lemma block_ports_snd d : map snd (block_ports d) = flat_map b_in (blocks d).
Proof.
  unfold block_ports. rewrite <- (enumerate_snd (blocks d)) at 2. induction (enumerate (blocks d)) as [|[j b] l IH]; auto.
  cbn [flat_map map snd fst]. rewrite map_app, IH. f_equal. rewrite map_map. cbn [snd]. apply enumerate_snd.
Qed.

Lemma filter_flat {X Y} (f : Y -> bool) (g h : X -> list Y) l :
  (forall x y, In x l -> In y (h x) -> f y = false) -> filter f (flat_map (fun x => g x ++ h x) l) = filter f (flat_map g l).
Proof.
  induction l as [|x l IH]; intros H; auto. cbn [flat_map]. rewrite !filter_app, IH by (intros; eapply H; simpl; eauto).
  rewrite <- app_assoc. f_equal. assert (N : filter f (h x) = []).
  { assert (G : forall m, (forall y, In y m -> f y = false) -> filter f m = []).
    { induction m as [|y m IHm]; intros Q; auto. simpl. rewrite (Q y) by (left; auto). apply IHm. intros z I. apply Q. right. exact I. }
    apply G. intros y I. apply (H x); simpl; auto. }
  rewrite N. reflexivity.
Qed.
Lemma filter_all {X} (f : X -> bool) l : (forall x, In x l -> f x = true) -> filter f l = l.
Proof. induction l as [|x l IH]; intros H; auto. simpl. rewrite (H x) by (left; auto). f_equal. apply IH. intros y I. apply H. right. exact I. Qed.
Lemma filter_none {X} (f : X -> bool) l : (forall x, In x l -> f x = false) -> filter f l = [].
Proof. induction l as [|x l IH]; intros H; auto. simpl. rewrite (H x) by (left; auto). apply IH. intros y I. apply H. right. exact I. Qed.
Lemma filter_map_snd {X Y} (f : Y -> bool) (l : list (X * Y)) : map snd (filter (fun p => f (snd p)) l) = filter f (map snd l).
Proof. induction l as [|[x y] l IH]; auto. simpl. destruct (f y); simpl; congruence. Qed.

Lemma inputs_split d : well_formed d -> inputs d = map snd (free_ports d) ++ nonblock_variables d.
Proof.
  intros WF. unfold inputs, free_ports. rewrite (variables_split d WF), filter_app. f_equal.
  - rewrite (filter_map_snd (fun v => negb (has_ancestor d v))), block_ports_snd. unfold block_variables. apply filter_flat.
    intros b v Ib Iv. apply negb_false_iff. unfold has_ancestor. apply orb_true_iff. left. apply existsb_exists. exists b. split; auto. apply mem_In. exact Iv.
  - apply filter_all. intros v I. assert (J : In v (inputs d)) by (apply (inputs_In d WF); right; apply (nbv_In d WF); exact I).
    unfold inputs in J. apply filter_In in J. exact (proj2 J).
Qed.

Lemma free_port_In d j i v : well_formed d -> In (j, i, v) (free_ports d) <->
  In v (inputs d) /\ exists b, nth_error (blocks d) j = Some b /\ nth_error (b_in b) i = Some v.
Proof.
  intros WF. unfold free_ports. rewrite filter_In, block_ports_In. cbn [snd]. split.
  - intros [[b [N M]] H]. split; [|eauto]. unfold inputs. apply filter_In. split; auto.
    apply (in_variables d WF). left. apply in_block_variables. exists b. split; [eapply nth_error_In; eauto|left; eapply nth_error_In; eauto].
  - intros [I [b [N M]]]. split; [eauto|]. unfold inputs in I. apply filter_In in I. exact (proj2 I).
Qed.

Lemma combine_app {X Y} (a a' : list X) (b b' : list Y) : length a = length b -> combine (a ++ a') (b ++ b') = combine a b ++ combine a' b'.
Proof. revert b. induction a as [|x a IH]; intros [|y b] E; inversion E; simpl; auto. f_equal. auto. Qed.

Lemma get_values (iv : nat -> option (value A)) (l : list nat) : forall a,
  ((forall i, i < length l -> iv (a + i) <> None) -> exists xs, mapM (fun x : nat * nat => of_option KeyError (iv (fst x))) (combine (seq a (length l)) l) = Ok xs
     /\ length xs = length l /\ forall i, i < length l -> nth_error xs i = iv (a + i))
  /\ ((exists i, i < length l /\ iv (a + i) = None) -> mapM (fun x : nat * nat => of_option KeyError (iv (fst x))) (combine (seq a (length l)) l) = Err KeyError).
Proof.
  induction l as [|v l IH]; intros a; split; cbn [length seq combine mapM].
  - intros _. exists []. repeat split; auto. simpl. lia.
  - intros [i [H _]]. lia.
  - intros H. destruct (IH (S a)) as [I1 _]. destruct I1 as [xs [E [Le N]]].
    { intros i Hi. replace (S a + i) with (a + S i) by lia. apply H. lia. }
    assert (H0 := H 0 ltac:(lia)). rewrite Nat.add_0_r in H0. cbn [fst]. destruct (iv a) as [x|] eqn:Ea; [|congruence].
    cbn [of_option bind]. rewrite E. cbn [bind]. exists (x :: xs). split; auto. split; [simpl; congruence|].
    intros [|i] Hi; cbn [nth_error]; [rewrite Nat.add_0_r; auto|]. rewrite N by lia. f_equal. lia.
  - intros [i [Hi E]]. cbn [fst]. destruct (iv a) as [x|] eqn:Ea; [|reflexivity]. cbn [of_option bind].
    destruct (IH (S a)) as [_ I2]. rewrite I2; [reflexivity|]. destruct i as [|i]; [rewrite Nat.add_0_r in E; congruence|].
    exists i. split; [lia|]. replace (S a + i) with (a + S i) by lia. exact E.
Qed.

Lemma split_values d (iv : nat -> option (value A)) : well_formed d ->
  let n := length (free_ports d) in let m := length (nonblock_variables d) in
  ((forall i, i < length (inputs d) -> iv i <> None) -> exists nv bv, split_input_values iv d = Ok (nv, bv)
     /\ length bv = n /\ length nv = m /\ (forall i, i < n -> nth_error bv i = iv i) /\ (forall k, k < m -> nth_error nv k = iv (n + k)))
  /\ ((exists i, i < length (inputs d) /\ iv i = None) -> split_input_values iv d = Err KeyError).
Proof.
  intros WF n m. unfold split_input_values, enumerate. rewrite (inputs_split d WF), app_length, map_length, seq_app. fold n m.
  rewrite combine_app by (rewrite map_length, seq_length; reflexivity). rewrite !filter_app. cbn [Nat.add].
  assert (NB : forall x, In x (combine (seq 0 n) (map snd (free_ports d))) -> mem (snd x) (nonblock_variables d) = false).
  { intros [a v] I. cbn [snd]. apply in_combine_r in I. apply in_map_iff in I. destruct I as [[[j i] v'] [E I]]. cbn in E; subst v'.
    apply (free_port_In d j i v WF) in I. destruct I as [_ [b [N M]]]. apply mem_false. intros J. apply (nbv_In d WF) in J.
    apply (proj2 J). apply in_block_variables. exists b. split; [eapply nth_error_In; eauto|left; eapply nth_error_In; eauto]. }
  assert (YB : forall x, In x (combine (seq n m) (nonblock_variables d)) -> mem (snd x) (nonblock_variables d) = true).
  { intros [a v] I. apply in_combine_r in I. apply mem_In. exact I. }
  rewrite (filter_none _ (combine (seq 0 n) (map snd (free_ports d)))) by (intros x I; rewrite (NB x I); reflexivity).
  rewrite (filter_all _ (combine (seq n m) (nonblock_variables d))) by (intros x I; rewrite (YB x I); reflexivity).
  rewrite (filter_all _ (combine (seq 0 n) (map snd (free_ports d)))) by (intros x I; rewrite (NB x I); reflexivity).
  rewrite (filter_none _ (combine (seq n m) (nonblock_variables d))) by (intros x I; rewrite (YB x I); reflexivity).
  rewrite app_nil_r. cbn [app].
  destruct (get_values iv (map snd (free_ports d)) 0) as [A1 A2]. destruct (get_values iv (nonblock_variables d) n) as [B1 B2].
  rewrite map_length in A1, A2. fold n in A1, A2. fold m in B1, B2. split.
  - intros H. destruct A1 as [bv [E1 [L1 N1]]]; [intros i Hi; apply H; lia|]. destruct B1 as [nv [E2 [L2 N2]]]; [intros i Hi; apply H; lia|].
    rewrite E2. cbn [bind]. rewrite E1. cbn [bind]. exists nv, bv. repeat split; auto.
  - intros [i [Hi E]]. destruct (le_lt_dec n i) as [H|H].
    + rewrite B2; [reflexivity|]. exists (i - n). split; [lia|]. replace (n + (i - n)) with i by lia. exact E.
    + assert (D : (forall k, k < m -> iv (n + k) <> None) \/ exists k, k < m /\ iv (n + k) = None).
      { clear. induction m as [|m [IH|[k [L E]]]]; [left; intros; lia| |right; exists k; auto].
        destruct (iv (n + m)) eqn:Em; [left; intros k L; destruct (Nat.eq_dec k m); [congruence|apply IH; lia]|right; exists m; auto]. }
      destruct D as [D|D]; [|rewrite (B2 D); reflexivity]. destruct (B1 D) as [nv [E2 _]]. rewrite E2. cbn [bind]. rewrite A2; [reflexivity|]. eauto.
Qed.

(** ** The loops *)
Section Loops.
Variable type_of : nat -> ann.
Notation write_port := (write_port type_name type_of).
Notation write_nbv := (write_nbv type_name type_of).
Notation process_value := (process_value type_name).

Definition port_name (p : nat * nat * nat) : vname := NPort (fst (fst p)) (snd (fst p)).
Definition port_item (p : nat * nat * nat) : vref * vname := (VIn (Sub 0 (NBlock (fst (fst p)))) (snd (fst p)), port_name p).
Definition kept (body : list stmt) (p : nat * nat * nat) : bool := negb (is_named body (fst (fst p)) (snd (fst p))).

Lemma write_ports body bv ps : forall s,
  w_index s + length (filter (kept body) ps) <= length bv ->
  foldM (write_port body bv) ps s =
    let us := filter (kept body) ps in
    let* ls := mapM (fun p => update_imports (type_of (snd p))) us in
    Ok (mkW (w_index s + length us)
         (w_values s ++ map (fun px => (port_name (fst px), process_value (snd px))) (combine us (skipn (w_index s) bv)))
         (w_items s ++ map port_item us) (w_imports s ++ concat ls)).
Proof.
  induction ps as [|[[j i] v] ps IH]; intros s H.
  - cbn. rewrite Nat.add_0_r, !app_nil_r. destruct s; reflexivity.
  - cbn [foldM]. unfold RunScriptModel.write_port at 1. fold (is_named body j i). cbn [filter] in *.
    change (kept body (j, i, v)) with (negb (is_named body j i)) in *. cbn [fst snd] in *.
    destruct (is_named body j i); cbn [negb] in *.
    + cbn [bind]. rewrite IH by exact H. reflexivity.
    + cbn [length] in H. destruct (nth_error bv (w_index s)) as [x|] eqn:N; [|apply nth_error_None in N; lia]. cbn [of_option bind mapM snd].
      destruct (update_imports (type_of v)) as [l|]; [|reflexivity]. cbn [bind]. rewrite IH by (cbn [w_index]; lia). cbn [w_index w_values w_items w_imports].
      set (us := filter (kept body) ps). destruct (mapM _ us) as [ls|]; [|reflexivity]. cbn [bind]. f_equal. f_equal.
      * cbn [length]. lia.
      * rewrite <- app_assoc. f_equal. cbn [app].
        assert (Sk : skipn (w_index s) bv = x :: skipn (S (w_index s)) bv).
        { clear - N. revert bv N. induction (w_index s) as [|k IH]; intros [|y bv] N; try discriminate; [inversion N; reflexivity|].
          cbn [skipn nth_error] in *. rewrite (IH bv N). reflexivity. }
        rewrite Sk. reflexivity.
      * rewrite <- app_assoc. reflexivity.
      * rewrite <- app_assoc. reflexivity.
Qed.

Lemma write_nbvs nv vs : forall o s, o + length vs <= length nv ->
  foldM (write_nbv nv) (combine (seq o (length vs)) vs) s =
    let* ls := mapM (fun v => update_imports (type_of v)) vs in
    Ok (mkW (w_index s)
         (w_values s ++ map (fun kx => (NFree (fst kx), process_value (snd kx))) (combine (seq o (length vs)) (skipn o nv)))
         (w_items s ++ map (fun k => (VName (Sub 0 (NVar k)), NFree k)) (seq o (length vs))) (w_imports s ++ concat ls)).
Proof.
  induction vs as [|v vs IH]; intros o s H; cbn [length seq combine foldM mapM].
  - cbn. rewrite !app_nil_r. destruct s; reflexivity.
  - unfold RunScriptModel.write_nbv at 1. cbn [fst snd length] in *.
    destruct (nth_error nv o) as [x|] eqn:N; [|apply nth_error_None in N; lia]. cbn [of_option bind].
    destruct (update_imports (type_of v)) as [l|]; [|reflexivity]. cbn [bind]. rewrite IH by lia. cbn [w_index w_values w_items w_imports].
    destruct (mapM _ vs) as [ls|]; [|reflexivity]. cbn [bind]. f_equal. f_equal.
    + rewrite <- app_assoc. f_equal. cbn [app].
      assert (Sk : skipn o nv = x :: skipn (S o) nv).
      { clear - N. revert nv N. induction o as [|k IH]; intros [|y nv] N; try discriminate; [inversion N; reflexivity|].
        cbn [skipn nth_error] in *. rewrite (IH nv N). reflexivity. }
      rewrite Sk. reflexivity.
    + rewrite <- app_assoc. reflexivity.
    + rewrite <- app_assoc. reflexivity.
Qed.
End Loops.
End P.

(** Executing the script of a workflow. *)
From Coq Require Import ZArith Bool String Ascii Arith Lia List.
From Verif Require Import Base BaseProofs ExecModel ExecSpec ExecStruct WiringModel WiringSpec WiringProofs VariablesModel
  ScriptModel ScriptSpec ScriptProofs.
Import ListNotations.
Open Scope string_scope.
Open Scope list_scope.

Section Ind.
Context {V : Type}.
Variable P : @wf V -> Prop.
Variable Q : @part V -> Prop.
Hypothesis HW : forall d info ps doc nm, Forall Q ps -> P (Wf d info ps doc nm).
Hypothesis HC : forall c n p, Q (Part (KConf c) n p).
Hypothesis HB : forall w n p, P w -> Q (Part (KWorkflow w) n p).
Hypothesis HF : forall w bn bp i n p, P w -> Q (Part (KForEach w bn bp i) n p).
Fixpoint wf_ind' (w : wf) : P w :=
  match w with
  | Wf d info ps doc nm =>
    HW d info ps doc nm ((fix go l : Forall Q l :=
      match l with [] => Forall_nil _ | p :: l' => Forall_cons p (part_ind' p) (go l') end) ps)
  end
with part_ind' (p : part) : Q p :=
  match p with
  | Part k n pos =>
    match k with
    | KConf c => HC c n pos
    | KWorkflow w => HB w n pos (wf_ind' w)
    | KForEach w bn bp i => HF w bn bp i n pos (wf_ind' w)
    end
  end.
End Ind.

Lemma foldM_app {A S} (f : S -> A -> res S) l m s :
  foldM f (l ++ m) s = let* s' := foldM f l s in foldM f m s'.
Proof. revert s. induction l as [|a l IH]; intros s; cbn [app foldM bind]; auto. destruct (f s a); cbn [bind]; auto. Qed.

Lemma name_eqb_eq a b : name_eqb a b = true <-> a = b.
Proof.
  assert (B : forall x y, base_eqb x y = true <-> x = y).
  { intros [] []; simpl; try (split; [discriminate|intros E; inversion E; fail]); try tauto;
    rewrite Nat.eqb_eq; (split; [intros ->; auto|intros E; inversion E; auto]). }
  destruct a as [n x|], b as [m y|]; simpl; try (split; [discriminate|intros E; inversion E; fail]); try tauto.
  rewrite andb_true_iff, Nat.eqb_eq, B. split; [intros [-> ->]; auto|intros E; inversion E; auto].
Qed.

Lemma enumerate_fst {A} (l : list A) : map fst (enumerate l) = seq 0 (length l).
Proof.
  unfold enumerate. generalize 0. induction l as [|a l IH]; intros k; simpl; auto. rewrite IH. reflexivity.
Qed.

Lemma nth_error_seq a n k : k < n -> nth_error (seq a n) k = Some (a + k).
Proof.
  intros L. rewrite (nth_error_nth' _ 0) by (rewrite seq_length; auto). rewrite seq_nth by auto. reflexivity.
Qed.

Lemma nth_error_ext {A} (l m : list A) : (forall i, nth_error l i = nth_error m i) -> l = m.
Proof.
  revert m. induction l as [|a l IH]; intros [|b m] H; auto; try (specialize (H 0); discriminate).
  assert (H0 := H 0). inversion H0; subst. f_equal. apply IH. intros i. exact (H (S i)).
Qed.

Section E.
Context {V : Type}.
Variable params : cls -> string -> list (variable V string).
Variable text : string -> V.
Hypothesis UP : unlocked_params params.
Variable imports : list (string * list string).

Notation variable := (variable V string).
Notation wf := (@wf V).
Notation part := (@part V).
Notation st := (@st V).
Notation exec := (exec params text imports).
Notation ports := (ports params text).
Notation constructed := (constructed params text).
Notation sound := (sound params text).
Notation fits := (fits params text).
Notation comes_back := (comes_back params text).
Notation part_back := (part_back params text).
Notation keeps_default := (keeps_default params text).
Notation inner_default := (inner_default params text).
Notation locks_kept := (locks_kept params text).
Notation part_locks := (part_locks params text).
Definition known (l : list cls) : Prop := forall c, In c l -> lookup imports (c_name c) = Some c.

Definition good (x : variable) : Prop := v_lock x = true -> v_default x <> None.

Lemma copy_good n (x : variable) : good x -> copy_as n x = Ok (mkVar (v_default x) (v_lock x) n).
Proof.
  intros G. unfold copy_as, copy, is_locked, good in *. destruct x as [dv l nm]. simpl in *. destruct l; cbn [bind].
  - destruct dv; [reflexivity|]. exfalso. apply G; auto.
  - reflexivity.
Qed.

Lemma ports_unlocked c x : In x (fst (ports c) ++ snd (ports c)) -> v_lock x = false.
Proof.
  intros I. apply in_app_or in I. destruct c; simpl in I;
  repeat match goal with
  | H : _ \/ _ |- _ => destruct H
  | H : False |- _ => destruct H
  | H : In _ (map _ _) |- _ => apply in_map_iff in H; destruct H as [? [? _]]
  | H : In _ (_ ++ _) |- _ => apply in_app_or in H; simpl in H
  | H : In _ (params _ _) |- _ => apply UP in H
  end; subst; auto.
Qed.

Lemma resolved c : lookup imports (c_name c) = Some c -> resolve imports (c_name c) = Ok c.
Proof. intros E. unfold resolve. rewrite E. reflexivity. Qed.

(** ** Frames *)
Definition touched (n : nat) (x : name) : Prop := match x with Sub m _ => n <= m | NWfblock => True end.
Definition frame (n : nat) (s s' : st) : Prop :=
  next s <= next s' /\ (forall v, v < next s -> heap s' v = heap s v) /\ forall x, ~ touched n x -> env s' x = env s x.

Lemma frame_refl n s : frame n s s.
Proof. split; auto. Qed.
Lemma frame_trans n s1 s2 s3 : frame n s1 s2 -> frame n s2 s3 -> frame n s1 s3.
Proof.
  intros [A [B C]] [A' [B' C']]. split; [lia|]. split.
  - intros v L. rewrite B' by lia. auto.
  - intros x T. rewrite C'; auto.
Qed.
Lemma frame_weak n m s s' : m <= n -> frame n s s' -> frame m s s'.
Proof.
  intros L [A [B C]]. split; auto. split; auto. intros x T. apply C. destruct x; simpl in *; auto. lia.
Qed.

(** the state once a block is built *)
Definition placed (s : st) (x : name) (p : part) (ins outs : list variable) : st :=
  set (fst (alloc (fst (alloc s ins)) outs)) x (OBlock p (seq (next s) (length ins)) (seq (next s + length ins) (length outs))).

Lemma placed_next s x p ins outs : next (placed s x p ins outs) = next s + length ins + length outs.
Proof. reflexivity. Qed.
Lemma placed_doc s x p ins outs : docu (placed s x p ins outs) = docu s.
Proof. reflexivity. Qed.
Lemma placed_env s x p ins outs y : env (placed s x p ins outs) y =
  if name_eqb x y then Some (OBlock p (seq (next s) (length ins)) (seq (next s + length ins) (length outs))) else env s y.
Proof. reflexivity. Qed.
Lemma placed_old s x p ins outs v : v < next s -> heap (placed s x p ins outs) v = heap s v.
Proof.
  intros L. simpl. replace (next s + length ins <=? v)%nat with false by (symmetry; apply Nat.leb_gt; lia).
  replace (next s <=? v)%nat with false by (symmetry; apply Nat.leb_gt; lia). reflexivity.
Qed.
Lemma placed_in s x p ins outs k y : nth_error ins k = Some y -> heap (placed s x p ins outs) (next s + k) = y.
Proof.
  intros N. assert (L : k < length ins) by (apply nth_error_Some; congruence). simpl.
  replace (next s + length ins <=? next s + k)%nat with false by (symmetry; apply Nat.leb_gt; lia). cbn [andb].
  replace (next s <=? next s + k)%nat with true by (symmetry; apply Nat.leb_le; lia).
  replace (next s + k <? next s + length ins)%nat with true by (symmetry; apply Nat.ltb_lt; lia). cbn [andb].
  replace (next s + k - next s) with k by lia. apply nth_error_nth; auto.
Qed.
Lemma placed_out s x p ins outs k y : nth_error outs k = Some y -> heap (placed s x p ins outs) (next s + length ins + k) = y.
Proof.
  intros N. assert (L : k < length outs) by (apply nth_error_Some; congruence). simpl.
  replace (next s + length ins <=? next s + length ins + k)%nat with true by (symmetry; apply Nat.leb_le; lia).
  replace (next s + length ins + k <? next s + length ins + length outs)%nat with true by (symmetry; apply Nat.ltb_lt; lia). cbn [andb].
  replace (next s + length ins + k - (next s + length ins)) with k by lia. apply nth_error_nth; auto.
Qed.
Lemma placed_frame n s x p ins outs : touched n x -> frame n s (placed s x p ins outs).
Proof.
  intros T. split; [rewrite placed_next; lia|]. split; [intros; apply placed_old; auto|].
  intros y NT. rewrite placed_env. destruct (name_eqb x y) eqn:E; auto. apply name_eqb_eq in E. subst. contradiction.
Qed.

Lemma exec_block s x f args k vs p ins outs : resolve imports f = Ok k -> eval_args imports s args = Ok vs ->
  build k vs = Ok p -> constructed p = Ok (ins, outs) -> exec s (SBlock x f args) = Ok (placed s x p ins outs).
Proof.
  intros A B C D. cbn [ScriptModel.exec]. rewrite A. cbn [bind]. rewrite B. cbn [bind]. rewrite C. cbn [bind]. rewrite D. reflexivity.
Qed.

(** ** What is proved of workflows and of blocks *)
Definition wf_result (w w' : wf) : Prop :=
  comes_back w w' /\ length (inputs (diagram w')) = length (inputs (diagram w)) /\ output (diagram w') <> None
  /\ (forall i v', nth_error (inputs (diagram w')) i = Some v' ->
        good (info w' v') /\ (v_default (info w' v') <> None <-> inner_default w i))
  /\ (forall o', output (diagram w') = Some o' -> good (info w' o')).

(** the variables of the script hold the blocks and the free variables of the workflow *)
Definition held (n : nat) (s : st) (w' : wf) : Prop :=
  (forall j b, nth_error (blocks (diagram w')) j = Some b -> exists p, env s (Sub n (NBlock j)) = Some (OBlock p (b_in b) (b_out b)))
  /\ (forall k v, nth_error (nonblock_variables (diagram w')) k = Some v -> env s (Sub n (NVar k)) = Some (OVar v)).

Definition wf_runs (w : wf) : Prop := sound w -> known (uses w) -> forall n, exists imps body,
  wf_script n w = Ok (imps, body) /\ forall s,
  (exists s' w', foldM exec body s = Ok s' /\ frame n s s' /\ env s' (Sub n NWorkflow) = Some (OWf w')
     /\ wf_result w w' /\ docu s' = Some (last_doc w) /\ locks_kept w /\ held n s' w')
  \/ (foldM exec body s = Err ValueError /\ ~ locks_kept w).

Definition part_result (p p' : part) (b : block) (ins outs : list variable) : Prop :=
  part_back p p' /\ constructed p' = Ok (ins, outs) /\ length ins = length (b_in b) /\ length outs = length (b_out b)
  /\ (forall x, In x (ins ++ outs) -> good x)
  /\ (forall k x, nth_error ins k = Some x -> (v_default x <> None <-> keeps_default p k)).

Definition doc_after (p : part) (d : option string) : option string :=
  match part_doc p with Some x => Some x | None => d end.

Definition part_runs (p : part) : Prop := forall b, fits p b -> known (part_uses p) -> forall n, exists imps before f args,
  part_script n p (length (b_in b)) = Ok (imps, before, (f, args)) /\ forall s,
  (exists s1 p' ins outs, foldM exec before s = Ok s1 /\ frame (S n) s s1
     /\ (forall x, exec s1 (SBlock x f args) = Ok (placed s1 x p' ins outs))
     /\ part_result p p' b ins outs /\ docu s1 = doc_after p (docu s) /\ part_locks p)
  \/ (foldM exec before s = Err ValueError /\ ~ part_locks p).

Lemma conf_runs c n p : part_runs (Part (KConf c) n p).
Proof.
  intros b [W [Li Lo]] K m.
  destruct (conf_back params text imports start c _ n p W Li K) as [imps [f [args [k [vs [E _]]]]]].
  exists imps, [], f, args. cbn [part_script]. rewrite E. split; [reflexivity|]. intros s. left.
  destruct (conf_back params text imports s c _ n p W Li K) as [imps' [f' [args' [k' [vs' [E' [Rf [Ev B]]]]]]]].
  rewrite E in E'. inversion E'; subst imps' f' args'. clear E'.
  exists s, (Part (KConf c) n (kept_pos c p)), (fst (ports c)), (snd (ports c)).
  assert (C : constructed (Part (KConf c) n (kept_pos c p)) = Ok (fst (ports c), snd (ports c))) by (simpl; destruct (ports c); reflexivity).
  split; [reflexivity|]. split; [apply frame_refl|]. split; [intros x; eapply exec_block; eauto|].
  split; [|split; [reflexivity|exact I]].
  split; [apply pb_conf|]. split; [exact C|]. split; [auto|]. split; [auto|]. split.
  - intros x J L. rewrite (ports_unlocked c x J) in L. discriminate.
  - intros k0 x N. split; [intros H; eapply kd_conf; eauto|]. intros H. inversion H; subst. congruence.
Qed.

(** ** WorkflowBlock *)
Lemma mapM_all {A B} (f : A -> res B) (g : A -> B) l : (forall x, In x l -> f x = Ok (g x)) -> mapM f l = Ok (map g l).
Proof.
  induction l as [|a l IH]; intros H; cbn [mapM map]; auto. rewrite H by (simpl; auto). cbn [bind].
  rewrite IH by (intros; apply H; simpl; auto). reflexivity.
Qed.

Lemma wfblock_ok w w' n p : wf_result w w' -> exists ins outs,
  wfblock_ports w' n = Ok (ins, outs) /\ length ins = length (inputs (diagram w)) /\ length outs = 1
  /\ (forall x, In x (ins ++ outs) -> good x)
  /\ (forall k x, nth_error ins k = Some x -> (v_default x <> None <-> keeps_default (Part (KWorkflow w) n p) k)).
Proof.
  intros [_ [L [O [I G]]]]. unfold wfblock_ports.
  rewrite (mapM_all _ (fun v => mkVar (v_default (info w' v)) (v_lock (info w' v)) (n ++ " - " ++ v_label (info w' v))%string)).
  2: { intros v J. apply copy_good. apply In_nth_error in J. destruct J as [i J]. apply (I i v J). }
  cbn [bind]. destruct (output (diagram w')) as [o|] eqn:E; [|exfalso; apply O; auto]. cbn [of_option bind].
  rewrite copy_good by auto. cbn [bind]. do 2 eexists. split; [reflexivity|]. split; [rewrite map_length; exact L|]. split; [reflexivity|]. split.
  - intros x J. apply in_app_or in J. destruct J as [J|[<-|[]]].
    + apply in_map_iff in J. destruct J as [v [<- J]]. apply In_nth_error in J. destruct J as [i J]. exact (proj1 (I i v J)).
    + exact (G o eq_refl).
  - intros k x N. rewrite nth_error_map in N. destruct (nth_error (inputs (diagram w')) k) as [v|] eqn:Nv; [|discriminate].
    inversion N; subst x. cbn [v_default]. rewrite (proj2 (I k v Nv)). split; [apply kd_workflow|].
    intros H. inversion H; subst; auto.
Qed.

Lemma build_wfblock s x w' n p : env s (Sub x NWorkflow) = Some (OWf w') -> exists vs,
  eval_args imports s (("workflow", EName (Sub x NWorkflow)) :: base_script n p) = Ok vs
  /\ build (in_blocks "WorkflowBlock") vs = Ok (Part (KWorkflow w') n p : part).
Proof.
  intros E. unfold eval_args, base_script. cbn. rewrite E. cbn. eexists. split; reflexivity.
Qed.

Lemma workflow_runs w n p : wf_runs w -> part_runs (Part (KWorkflow w) n p).
Proof.
  intros IH b [D [S [Li Lo]]] K m. cbn [part_uses] in K.
  destruct (IH S (fun c J => K c (or_intror J)) (Datatypes.S m)) as [imps [body [E R]]].
  change (part_script m (Part (KWorkflow w) n p) (length (b_in b))) with (let* s := wf_script (Datatypes.S m) w in
    Ok (fst s ++ [in_blocks "WorkflowBlock"], snd s,
        ("WorkflowBlock", ("workflow", EName (Sub (Datatypes.S m) NWorkflow)) :: base_script n p))).
  rewrite E. cbn [bind fst snd]. do 4 eexists. split; [reflexivity|]. intros s.
  destruct (R s) as [[s1 [w' [X [F [N [Rw [Dc [L _]]]]]]]]|[X L]]; [left|right; split; auto].
  destruct (wfblock_ok w w' n p Rw) as [ins [outs [C [Ci [Co [G KD]]]]]].
  exists s1, (Part (KWorkflow w') n p), ins, outs. split; [exact X|]. split; [exact F|]. split.
  - intros x. destruct (build_wfblock s1 _ w' n p N) as [vs [Ev B]].
    eapply exec_block; eauto. exact (resolved _ (K (in_blocks "WorkflowBlock") (or_introl eq_refl))).
  - split; [|split; [unfold doc_after; simpl; exact Dc|exact L]].
    split; [apply pb_workflow, Rw|]. split; [exact C|]. split; [congruence|]. split; [congruence|]. split; auto.
Qed.

Lemma foreach_ok w w' bn bp i n p : wf_result w w' -> i < length (inputs (diagram w)) -> exists ins outs,
  foreach_ports w' bn i = Ok (ins, outs) /\ length ins = length (inputs (diagram w)) /\ length outs = 1
  /\ (forall x, In x (ins ++ outs) -> good x)
  /\ (forall k x, nth_error ins k = Some x -> (v_default x <> None <-> keeps_default (Part (KForEach w bn bp i) n p) k)).
Proof.
  intros R Li. destruct (wfblock_ok w w' bn bp R) as [ins [outs [C [Ci [Co [G KD]]]]]]. unfold foreach_ports. rewrite C. cbn [bind fst].
  assert (N : exists y, nth_error ins i = Some y) by (destruct (nth_error ins i) eqn:N; [eauto|apply nth_error_None in N; lia]).
  destruct N as [y ->]. cbn [of_option bind].
  set (g := fun ix : nat * variable => if Nat.eqb (fst ix) i then @var V ("Iterable input: " ++ v_label (snd ix))
     else mkVar (v_default (snd ix)) (v_lock (snd ix)) ("Binding: " ++ v_label (snd ix))%string).
  rewrite (mapM_all _ g).
  2: { intros [k x] J. unfold g. cbn [fst snd]. apply enumerate_In in J. apply nth_error_In in J.
       destruct (Nat.eqb k i); auto. apply copy_good, G, in_or_app; auto. }
  cbn [bind]. do 2 eexists. split; [reflexivity|]. split; [rewrite map_length; unfold enumerate; rewrite combine_length, seq_length; lia|].
  split; [reflexivity|]. split.
  - intros x J. apply in_app_or in J. destruct J as [J|[<-|[]]]; [|intros H; discriminate H].
    apply in_map_iff in J. destruct J as [[k z] [<- J]]. apply enumerate_In, nth_error_In in J. unfold g. cbn [fst snd].
    destruct (Nat.eqb k i); [intros H; discriminate H|]. apply (G z). apply in_or_app; auto.
  - intros k x N. rewrite nth_error_map in N. destruct (nth_error (enumerate ins) k) as [[k' z]|] eqn:Nz; [|discriminate].
    assert (k' = k /\ nth_error ins k = Some z) as [-> Nk].
    { unfold enumerate in Nz. assert (Lk : k < length ins).
      { assert (nth_error (combine (seq 0 (length ins)) ins) k <> None) as H by congruence. apply nth_error_Some in H.
        rewrite combine_length, seq_length in H. lia. }
      assert (J := nth_error_In _ _ Nz). apply enumerate_In in J.
      assert (k' = k).
      { assert (H : nth_error (map fst (combine (seq 0 (length ins)) ins)) k = Some k') by (rewrite nth_error_map, Nz; reflexivity).
        change (combine (seq 0 (length ins)) ins) with (enumerate ins) in H. rewrite enumerate_fst in H.
        rewrite nth_error_seq in H by auto. simpl in H. congruence. }
      subst. auto. }
    inversion N; subst x. unfold g. cbn [fst snd]. destruct (Nat.eqb k i) eqn:Ek; cbn [var v_default].
    + apply Nat.eqb_eq in Ek. split; [congruence|]. intros H. inversion H; subst; congruence.
    + apply Nat.eqb_neq in Ek. rewrite (KD k z Nk). split; intros H; inversion H; subst; [apply kd_foreach|apply kd_workflow]; auto.
Qed.

Lemma foreach_runs w bn bp i n p : wf_runs w -> part_runs (Part (KForEach w bn bp i) n p).
Proof.
  intros IH b [D [D' [S [Li [Lo Lt]]]]] K m. cbn [part_uses] in K.
  destruct (IH S (fun c J => K c (or_intror (or_intror J))) (Datatypes.S m)) as [imps [body [E R]]].
  change (part_script m (Part (KForEach w bn bp i) n p) (length (b_in b))) with (let* s := wf_script (Datatypes.S m) w in
    Ok (fst s ++ [in_blocks "WorkflowBlock"] ++ [in_blocks "ForEach"],
        snd s ++ [SBlock NWfblock "WorkflowBlock" (("workflow", EName (Sub (Datatypes.S m) NWorkflow)) :: base_script bn bp)],
        ("ForEach", ("workflow_block", EName NWfblock) :: ("iter_input_index", ENat i) :: base_script n p))).
  rewrite E. cbn [bind fst snd]. do 4 eexists. split; [reflexivity|]. intros s. rewrite foldM_app.
  destruct (R s) as [[s1 [w' [X [F [N [Rw [Dc [L _]]]]]]]]|[X L]]; rewrite X; cbn [bind]; [left|right; split; auto].
  destruct (wfblock_ok w w' bn bp Rw) as [ins0 [outs0 [C0 _]]].
  destruct (foreach_ok w w' bn bp i n p Rw Lt) as [ins [outs [C [Ci [Co [G KD]]]]]].
  set (s2 := placed s1 NWfblock (Part (KWorkflow w') bn bp) ins0 outs0).
  exists s2, (Part (KForEach w' bn bp i) n p), ins, outs. split; [|split; [|split]].
  - cbn [foldM]. destruct (build_wfblock s1 _ w' bn bp N) as [vs [Ev B]].
    rewrite (exec_block s1 NWfblock "WorkflowBlock" _ (in_blocks "WorkflowBlock") vs (Part (KWorkflow w') bn bp) ins0 outs0);
      [reflexivity| |exact Ev|exact B|exact C0].
    exact (resolved _ (K (in_blocks "WorkflowBlock") (or_intror (or_introl eq_refl)))).
  - eapply frame_trans; [exact F|]. apply placed_frame. exact I.
  - intros x. eapply exec_block; [exact (resolved _ (K (in_blocks "ForEach") (or_introl eq_refl)))| | |exact C].
    + unfold eval_args, base_script. cbn [mapM snd fst eval]. unfold s2. rewrite placed_env. reflexivity.
    + reflexivity.
  - split; [|split; [unfold doc_after; simpl; exact Dc|exact L]].
    split; [apply pb_foreach, Rw|]. split; [exact C|]. split; [congruence|]. split; [congruence|]. split; auto.
Qed.

(** ** Locks *)
Lemma locked_good (x : variable) : good x -> is_locked x = Ok (v_lock x).
Proof.
  unfold good, is_locked. destruct (v_lock x); auto. destruct (v_default x); auto. intros G. exfalso. apply G; auto.
Qed.

Lemma locks_run info x p' ids outs : NoDup ids -> forall (vs : list nat) k0, (forall v, In v vs -> good (info v)) ->
  exists lines, lock_script x k0 (map info vs) = Ok lines
  /\ forall s, env s x = Some (OBlock p' ids outs) -> k0 + length vs = length ids ->
  (exists s', foldM exec lines s = Ok s' /\ next s' = next s /\ docu s' = docu s /\ (forall y, env s' y = env s y)
     /\ (forall j v u, nth_error vs j = Some v -> nth_error ids (k0 + j) = Some u ->
           heap s' u = mkVar (v_default (heap s u)) (v_lock (info v) || v_lock (heap s u)) (v_label (heap s u))
           /\ (v_lock (info v) = true -> v_default (heap s u) <> None))
     /\ (forall u, (forall j, j < length vs -> nth_error ids (k0 + j) <> Some u) -> heap s' u = heap s u))
  \/ (foldM exec lines s = Err ValueError /\ exists j v u, nth_error vs j = Some v /\ nth_error ids (k0 + j) = Some u
       /\ v_lock (info v) = true /\ v_default (heap s u) = None).
Proof.
  intros ND. induction vs as [|v vs IH]; intros k0 G.
  - exists []. split; [reflexivity|]. intros s E L. left. exists s. repeat split; auto.
    + destruct j; discriminate.
    + destruct j; discriminate.
  - destruct (IH (S k0) (fun u J => G u (or_intror J))) as [lines [El R]]. cbn [map lock_script].
    rewrite (locked_good _ (G v (or_introl eq_refl))). cbn [bind]. rewrite El. cbn [bind].
    eexists. split; [reflexivity|]. intros s E L. cbn [length] in L.
    assert (N : exists u0, nth_error ids k0 = Some u0) by (destruct (nth_error ids k0) eqn:N; [eauto|apply nth_error_None in N; lia]).
    destruct N as [u0 N0].
    assert (Uniq : forall j, nth_error ids (S k0 + j) = Some u0 -> False).
    { intros j Nj. rewrite NoDup_nth_error in ND. assert (k0 = S k0 + j); [|lia]. apply ND; [|congruence].
      apply nth_error_Some. congruence. }
    destruct (v_lock (info v)) eqn:Lk.
    + cbn [foldM]. unfold ScriptModel.exec at 1 3. unfold deref, block_of. rewrite E. cbn [bind snd b_in]. rewrite N0. cbn [of_option bind].
      unfold lock. destruct (v_default (heap s u0)) as [d0|] eqn:D0; cbn [snd fst bind].
      * set (s1 := mkSt (env s) (docu s) (upd (heap s) u0 (mkVar (Some d0) true (v_label (heap s u0)))) (next s)).
        assert (Other : forall u, u <> u0 -> heap s1 u = heap s u).
        { intros u H. unfold s1. cbn [heap]. unfold upd. destruct (Nat.eqb u u0) eqn:Q; auto. apply Nat.eqb_eq in Q. congruence. }
        assert (Here : heap s1 u0 = mkVar (Some d0) true (v_label (heap s u0))) by (unfold s1, upd; cbn [heap]; rewrite Nat.eqb_refl; reflexivity).
        destruct (R s1 E ltac:(lia)) as [[s' [X [Nx [Dc [En [H1 H2]]]]]]|[X [j [y [u [Ny [Nu [Ly Du]]]]]]]]; [left|right].
        -- exists s'. split; [exact X|]. split; [exact Nx|]. split; [exact Dc|]. split; [exact En|]. split.
           ++ intros [|j] y u Ny Nu.
              ** rewrite Nat.add_0_r in Nu. assert (u = u0) by congruence. subst u. inversion Ny; subst y. rewrite Lk, D0.
                 split; [|congruence]. rewrite H2; [exact Here|]. intros j _ Nj. exact (Uniq j Nj).
              ** rewrite Nat.add_succ_r in Nu. cbn [nth_error] in Ny.
                 assert (u <> u0) by (intros ->; apply (Uniq j); exact Nu).
                 rewrite <- (Other u) by auto. apply (H1 j); auto.
           ++ intros u H. rewrite H2.
              ** apply Other. intros ->. apply (H 0); [cbn [length]; lia|]. rewrite Nat.add_0_r. exact N0.
              ** intros j Lj. specialize (H (S j)). rewrite Nat.add_succ_r in H. apply H. cbn [length]. lia.
        -- split; [exact X|]. exists (S j), y, u. rewrite Nat.add_succ_r. cbn [nth_error].
           assert (u <> u0) by (intros ->; apply (Uniq j); exact Nu). rewrite <- (Other u) by auto. auto.
      * right. split; [reflexivity|]. exists 0, v, u0. rewrite Nat.add_0_r. auto.
    + destruct (R s E ltac:(lia)) as [[s' [X [Nx [Dc [En [H1 H2]]]]]]|[X [j [y [u [Ny [Nu [Ly Du]]]]]]]]; [left|right].
      * exists s'. split; [exact X|]. split; [exact Nx|]. split; [exact Dc|]. split; [exact En|]. split.
        -- intros [|j] y u Ny Nu.
           ++ rewrite Nat.add_0_r in Nu. assert (u = u0) by congruence. subst u. inversion Ny; subst y. rewrite Lk.
              split; [|congruence]. rewrite H2; [destruct (heap s u0); reflexivity|]. intros j _ Nj. exact (Uniq j Nj).
           ++ rewrite Nat.add_succ_r in Nu. cbn [nth_error] in Ny. apply (H1 j); auto.
        -- intros u H. apply H2. intros j Lj. specialize (H (S j)). rewrite Nat.add_succ_r in H. apply H. cbn [length]. lia.
      * split; [exact X|]. exists (S j), y, u. rewrite Nat.add_succ_r. auto.
Qed.

(** ** Blocks *)
Definition ids_of (b : block) : list nat := b_in b ++ b_out b.

Definition placed_block (info : nat -> variable) (s : st) (p p' : part) (b b' : block) : Prop :=
  exists ins outs, part_result p p' b ins outs
  /\ length (b_in b') = length (b_in b) /\ length (b_out b') = length (b_out b)
  /\ (forall k v u, nth_error (b_in b) k = Some v -> nth_error (b_in b') k = Some u ->
        exists x, nth_error ins k = Some x /\ heap s u = mkVar (v_default x) (v_lock (info v) || v_lock x) (v_label x)
          /\ (v_lock (info v) = true -> v_default x <> None))
  /\ (forall k u, nth_error (b_out b') k = Some u -> nth_error outs k = Some (heap s u)).

Lemma placed_block_later info s s' p p' b b' : (forall u, In u (ids_of b') -> heap s' u = heap s u) ->
  placed_block info s p p' b b' -> placed_block info s' p p' b b'.
Proof.
  intros H [ins [outs [R [Li [Lo [A B]]]]]]. exists ins, outs. split; auto. split; auto. split; auto. split.
  - intros k v u Nv Nu. rewrite H; eauto. apply in_or_app. left. eapply nth_error_In; eauto.
  - intros k u Nu. rewrite H; eauto. apply in_or_app. right. eapply nth_error_In; eauto.
Qed.

Inductive built_ok (info : nat -> variable) (s : st) : list part -> list block -> list (part * block) -> Prop :=
| bo_nil : built_ok info s [] [] []
| bo_cons p b p' b' ps bs l : placed_block info s p p' b b' -> built_ok info s ps bs l ->
    built_ok info s (p :: ps) (b :: bs) ((p', b') :: l).

Lemma built_later info s s' ps bs l : (forall u, In u (flat_map ids_of (map snd l)) -> heap s' u = heap s u) ->
  built_ok info s ps bs l -> built_ok info s' ps bs l.
Proof.
  intros H B. induction B; constructor.
  - eapply placed_block_later; [|eassumption]. intros u I. apply H. simpl. apply in_or_app; auto.
  - apply IHB. intros u I. apply H. simpl. apply in_or_app; auto.
Qed.

Definition bframe (n i : nat) (s s' : st) : Prop :=
  next s <= next s' /\ (forall v, v < next s -> heap s' v = heap s v)
  /\ forall x, ~ touched (S n) x -> (forall j, i <= j -> x <> Sub n (NBlock j)) -> env s' x = env s x.

Definition lock_ok (info : nat -> variable) (p : part) (b : block) : Prop :=
  (forall k v, nth_error (b_in b) k = Some v -> v_lock (info v) = true -> keeps_default p k) /\ part_locks p.

Lemma blocks_run info n ps : Forall part_runs ps -> forall bs i, all2 fits ps bs -> known (flat_map part_uses ps) ->
  (forall b v, In b bs -> In v (b_in b) -> good (info v)) ->
  exists imps body, blocks_script (part_script n) n info i ps bs = Ok (imps, body) /\ forall s,
  (exists s' l, foldM exec body s = Ok s' /\ bframe n i s s' /\ built_ok info s' ps bs l
     /\ (forall k pb, nth_error l k = Some pb ->
           env s' (Sub n (NBlock (i + k))) = Some (OBlock (fst pb) (b_in (snd pb)) (b_out (snd pb))))
     /\ NoDup (flat_map ids_of (map snd l))
     /\ (forall u, In u (flat_map ids_of (map snd l)) -> next s <= u < next s')
     /\ docu s' = fold_left (fun d p => doc_after p d) ps (docu s)
     /\ all2 (lock_ok info) ps bs)
  \/ (foldM exec body s = Err ValueError /\ ~ all2 (lock_ok info) ps bs).
Proof.
  intros FR. induction FR as [|p ps Hp FR IH]; intros bs i A K G.
  - destruct bs; [|destruct A]. exists [], []. split; [reflexivity|]. intros s. left. exists s, [].
    split; [reflexivity|]. split; [split; auto|]. split; [constructor|]. split; [intros k pb N; destruct k; discriminate|].
    split; [constructor|]. split; [intros u []|]. split; [reflexivity|exact I].
  - destruct bs as [|b bs]; [destruct A|]. destruct A as [F A].
    destruct (Hp b F (fun c J => K c (in_or_app _ _ _ (or_introl J))) n) as [imps1 [before [f [args [E1 R1]]]]].
    destruct (IH bs (S i) A (fun c J => K c (in_or_app _ _ _ (or_intror J))) (fun b' v J => G b' v (or_intror J)))
      as [imps2 [body2 [E2 R2]]].
    set (x := Sub n (NBlock i)).
    assert (Gb : forall v, In v (b_in b) -> good (info v)) by (intros v J; apply (G b); simpl; auto).
    assert (LS : exists lines, lock_script x 0 (map info (b_in b)) = Ok lines).
    { destruct (locks_run info x (Part (KConf CFlatten) "" (0, 0)%Z) [] [] (NoDup_nil _) (b_in b) 0 Gb) as [l [El _]]. eauto. }
    destruct LS as [lines El].
    assert (E : blocks_script (part_script n) n info i (p :: ps) (b :: bs)
                = Ok (imps1 ++ imps2, before ++ SBlock x f args :: lines ++ body2)).
    { change (blocks_script (part_script n) n info i (p :: ps) (b :: bs)) with
        (let* s := part_script n p (length (b_in b)) in
         let* locks := lock_script x 0 (map info (b_in b)) in
         let* r := blocks_script (part_script n) n info (S i) ps bs in
         Ok (fst (fst s) ++ fst r, snd (fst s) ++ SBlock x (fst (snd s)) (snd (snd s)) :: locks ++ snd r)).
      rewrite E1. cbn [bind]. rewrite El. cbn [bind]. rewrite E2. reflexivity. }
    do 2 eexists. split; [exact E|]. intros s. rewrite foldM_app.
    destruct (R1 s) as [[s1 [p' [ins [outs [X1 [Fr [X2 [PR [Dc PL]]]]]]]]]|[X1 PL]]; rewrite X1; cbn [bind].
    2: { right. split; auto. intros [[_ H] _]. exact (PL H). }
    cbn [foldM]. rewrite X2. cbn [bind]. rewrite foldM_app. set (s2 := placed s1 x p' ins outs).
    destruct PR as [PB [C [Ci [Co [Gx KD]]]]].
    assert (ND : NoDup (seq (next s1) (length ins))) by apply seq_NoDup.
    destruct (locks_run info x p' (seq (next s1) (length ins)) (seq (next s1 + length ins) (length outs)) ND (b_in b) 0 Gb)
      as [lines' [El' RL]]. rewrite El in El'. inversion El'; subst lines'. clear El'.
    assert (Ex : env s2 x = Some (OBlock p' (seq (next s1) (length ins)) (seq (next s1 + length ins) (length outs)))).
    { unfold s2. rewrite placed_env. rewrite (proj2 (name_eqb_eq x x) eq_refl). reflexivity. }
    destruct (RL s2 Ex ltac:(rewrite seq_length; lia)) as [[s3 [X3 [Nx [D3 [En [H1 H2]]]]]]|[X3 [j [v [u [Nv [Nu [Lv Du]]]]]]]];
      rewrite X3; cbn [bind].
    2: { right. split; auto. intros [[H _] _]. specialize (H j v Nv Lv).
         assert (Lj : j < length ins) by (rewrite Ci; apply nth_error_Some; congruence).
         destruct (nth_error ins j) as [y|] eqn:Ny; [|apply nth_error_None in Ny; lia].
         apply (KD j y Ny) in H. rewrite Nat.add_0_l, nth_error_seq in Nu by auto. inversion Nu; subst u.
         unfold s2 in Du. rewrite (placed_in _ _ _ _ _ _ _ Ny) in Du. contradiction. }
    destruct (R2 s3) as [[s4 [l [X4 [[F1 [F2 F3]] [B [Ev [NDl [Rg [D4 Al]]]]]]]]]|[X4 Al]]; rewrite X4.
    2: { right. split; auto. intros [_ H]. exact (Al H). }
    left. destruct Fr as [Fa [Fb Fc]].
    assert (Nx3 : next s3 = next s1 + length ins + length outs) by (rewrite Nx; reflexivity).
    set (b' := mkBlock (seq (next s1) (length ins)) (seq (next s1 + length ins) (length outs))).
    assert (Ib : forall u, In u (ids_of b') -> next s1 <= u < next s3).
    { intros u I. unfold ids_of in I. apply in_app_or in I. rewrite Nx3. destruct I as [I|I]; simpl in I; apply in_seq in I; lia. }
    assert (Old : forall u, u < next s1 -> heap s3 u = heap s1 u).
    { intros u Lu. rewrite H2.
      - unfold s2. apply placed_old. auto.
      - intros j Lj. rewrite Nat.add_0_l, nth_error_seq by lia. intros Q. inversion Q. lia. }
    assert (Lvl : forall j, x <> Sub n (NBlock (S i + j))) by (intros j Q; inversion Q; lia).
    exists s4, ((p', b') :: l). split; [reflexivity|]. split; [|split; [|split; [|split; [|split; [|split]]]]].
    + split; [lia|]. split.
      * intros v Lv. rewrite F2 by lia. rewrite Old by lia. auto.
      * intros y T H. rewrite F3; auto; [|intros j Lj; apply H; lia]. rewrite En. unfold s2. rewrite placed_env.
        destruct (name_eqb x y) eqn:Q; [|auto]. apply name_eqb_eq in Q. exfalso. apply (H i); auto.
    + constructor.
      * eapply placed_block_later; [intros u I; apply F2; apply Ib, I|].
        exists ins, outs. split; [repeat split; auto; apply KD; auto|]. cbn [b_in b_out b'].
        split; [rewrite seq_length; auto|]. split; [rewrite seq_length; auto|]. split.
        -- intros k v u Nv Nu. assert (Lk : k < length ins) by (rewrite Ci; apply nth_error_Some; congruence).
           destruct (nth_error ins k) as [y|] eqn:Ny; [|apply nth_error_None in Ny; lia]. exists y. split; auto.
           destruct (H1 k v u Nv Nu) as [Hu Hd]. rewrite nth_error_seq in Nu by auto. inversion Nu; subst u.
           assert (Hp2 : heap s2 (next s1 + k) = y) by (unfold s2; apply placed_in; auto).
           rewrite Hp2 in Hu, Hd. auto.
        -- intros k u Nu. assert (Lk : k < length outs) by (rewrite <- (seq_length (length outs) (next s1 + length ins)); apply nth_error_Some; congruence).
           rewrite nth_error_seq in Nu by auto. inversion Nu; subst u.
           destruct (nth_error outs k) as [y|] eqn:Ny; [|apply nth_error_None in Ny; lia]. f_equal.
           rewrite H2; [symmetry; unfold s2; apply placed_out; auto|].
           intros j Lj. rewrite Nat.add_0_l, nth_error_seq by lia. intros Q. inversion Q. lia.
      * exact B.
    + intros [|k] pb N; cbn [nth_error] in N.
      * inversion N; subst pb. rewrite Nat.add_0_r. rewrite F3.
        -- rewrite En. exact Ex.
        -- simpl. lia.
        -- intros j Lj Q. inversion Q. lia.
      * rewrite Nat.add_succ_r. apply (Ev k pb N).
    + cbn [map snd flat_map]. apply NoDup_app; auto.
      * unfold ids_of, b'. simpl. rewrite <- seq_app. apply seq_NoDup.
      * intros u I J. apply Ib in I. apply Rg in J. lia.
    + intros u I. cbn [map snd flat_map] in I. apply in_app_or in I. destruct I as [I|I].
      * apply Ib in I. lia.
      * apply Rg in I. lia.
    + rewrite D4, D3. unfold s2. rewrite placed_doc, Dc. reflexivity.
    + split; [split; auto|exact Al]. intros k v Nv Lv.
      assert (Lk : k < length ins) by (rewrite Ci; apply nth_error_Some; congruence).
      destruct (nth_error ins k) as [y|] eqn:Ny; [|apply nth_error_None in Ny; lia].
      apply (KD k y Ny). destruct (H1 k v (next s1 + k) Nv) as [_ Hd]; [rewrite Nat.add_0_l; apply nth_error_seq; auto|].
      specialize (Hd Lv). unfold s2 in Hd. rewrite (placed_in _ _ _ _ _ _ _ Ny) in Hd. exact Hd.
Qed.

(** ** Non block variables and pipes *)
Lemma core_ok n : lookup imports n = Some (in_core n) -> core_class imports n = Ok tt.
Proof. intros E. unfold core_class, resolve. rewrite E. cbn [of_option bind]. rewrite cls_eqb_refl. reflexivity. Qed.

Lemma nbvs_run (info : nat -> variable) n vs : (vs <> [] -> lookup imports "Variable" = Some (in_core "Variable")) -> forall o s,
  exists s', foldM exec (map (fun kv : nat * nat => SVar (Sub n (NVar (fst kv))) (v_label (info (snd kv)))) (combine (seq o (length vs)) vs)) s = Ok s'
  /\ next s' = next s + length vs /\ docu s' = docu s /\ (forall v, v < next s -> heap s' v = heap s v)
  /\ (forall k v, nth_error vs k = Some v -> heap s' (next s + k) = mkVar None false (v_label (info v))
        /\ env s' (Sub n (NVar (o + k))) = Some (OVar (next s + k)))
  /\ (forall y, (forall j, o <= j -> y <> Sub n (NVar j)) -> env s' y = env s y).
Proof.
  induction vs as [|v vs IH]; intros K o s.
  - exists s. split; [reflexivity|]. simpl. rewrite Nat.add_0_r. repeat split; auto; destruct k; discriminate.
  - cbn [length seq combine map foldM fst snd].
    set (s1 := set (fst (alloc s [@var V (v_label (info v))])) (Sub n (NVar o)) (OVar (next s)) : st).
    assert (E : exec s (SVar (Sub n (NVar o)) (v_label (info v))) = Ok s1).
    { cbn [ScriptModel.exec]. rewrite core_ok by (apply K; discriminate). reflexivity. }
    rewrite E. cbn [bind].
    assert (N1 : next s1 = S (next s)) by (unfold s1; simpl; lia).
    destruct (IH (fun _ => K ltac:(discriminate)) (S o) s1) as [s' [X [Nx [Dc [Hp [Hk He]]]]]].
    exists s'. split; [exact X|]. split; [rewrite Nx, N1; lia|]. split; [rewrite Dc; reflexivity|]. split; [|split].
    + intros u L. rewrite Hp by lia. unfold s1. cbn [set heap alloc fst]. 
      replace (next s <=? u)%nat with false by (symmetry; apply Nat.leb_gt; lia). reflexivity.
    + intros [|k] u N; cbn [nth_error] in N.
      * inversion N; subst u. rewrite !Nat.add_0_r. split.
        -- rewrite Hp by lia. unfold s1. cbn [set heap alloc fst length].
           replace (next s <=? next s)%nat with true by (symmetry; apply Nat.leb_le; lia).
           replace (next s <? next s + 1)%nat with true by (symmetry; apply Nat.ltb_lt; lia).
           rewrite Nat.sub_diag. reflexivity.
        -- rewrite He by (intros j Lj Q; inversion Q; lia). unfold s1. cbn [set env]. rewrite (proj2 (name_eqb_eq _ _) eq_refl). reflexivity.
      * rewrite !Nat.add_succ_r. specialize (Hk k u N). rewrite N1 in Hk. exact Hk.
    + intros y H. rewrite He by (intros j Lj; apply H; lia). unfold s1. cbn [set env].
      destruct (name_eqb (Sub n (NVar o)) y) eqn:Q; auto. apply name_eqb_eq in Q. exfalso. apply (H o); auto.
Qed.

(** the blocks [l] and the variables [ids] are in the variables of the script *)
Definition wired (n : nat) (s : st) (l : list (part * block)) (ids : list nat) : Prop :=
  (forall k pb, nth_error l k = Some pb -> env s (Sub n (NBlock k)) = Some (OBlock (fst pb) (b_in (snd pb)) (b_out (snd pb))))
  /\ (forall k u, nth_error ids k = Some u -> env s (Sub n (NVar k)) = Some (OVar u)).

Lemma deref_source n s l ids a u : wired n s l ids -> source_of (map snd l) ids a = Ok u -> deref s (source_script n a) = Ok u.
Proof.
  intros [B I] E. destruct a as [k|b side k]; simpl in *.
  - destruct (nth_error ids k) eqn:N; [|discriminate]. inversion E; subst. rewrite (I k u N). reflexivity.
  - rewrite nth_error_map in E. destruct (nth_error l b) as [pb|] eqn:N; [|discriminate]. cbn [option_map of_option bind] in E.
    unfold block_of. rewrite (B b pb N). exact E.
Qed.
Lemma deref_target n s l ids a u : wired n s l ids -> target_of (map snd l) ids a = Ok u -> deref s (target_script n a) = Ok u.
Proof.
  intros [B I] E. destruct a as [k|b side k]; simpl in *.
  - destruct (nth_error ids k) eqn:N; [|discriminate]. inversion E; subst. rewrite (I k u N). reflexivity.
  - rewrite nth_error_map in E. destruct (nth_error l b) as [pb|] eqn:N; [|discriminate]. cbn [option_map of_option bind] in E.
    unfold block_of. rewrite (B b pb N). exact E.
Qed.

Lemma pipes_loop n d (h : nat -> nat) l ids ps : (ps <> [] -> lookup imports "Pipe" = Some (in_core "Pipe")) ->
  (forall s t, In (s, t) ps -> exists a, variable_indices d s = Ok a /\ source_of (map snd l) ids a = Ok (h s)) ->
  (forall s t, In (s, t) ps -> exists a, variable_indices d t = Ok a /\ target_of (map snd l) ids a = Ok (h t)) -> forall o,
  exists lines, mapM (fun ip : nat * (nat * nat) =>
                    let* a := variable_indices d (fst (snd ip)) in
                    let* b := variable_indices d (snd (snd ip)) in
                    Ok (SPipe (Sub n (NPipe (fst ip))) (source_script n a) (target_script n b))) (combine (seq o (length ps)) ps) = Ok lines
  /\ forall s, wired n s l ids -> exists s', foldM exec lines s = Ok s' /\ next s' = next s /\ docu s' = docu s /\ heap s' = heap s
  /\ (forall k p, nth_error ps k = Some p -> env s' (Sub n (NPipe (o + k))) = Some (OPipe (h (fst p)) (h (snd p))))
  /\ (forall y, (forall j, o <= j -> y <> Sub n (NPipe j)) -> env s' y = env s y).
Proof.
  induction ps as [|[a b] ps IH]; intros K HS HT o.
  - exists []. split; [reflexivity|]. intros s W. exists s. repeat split; auto. destruct k; discriminate.
  - destruct (IH (fun _ => K ltac:(discriminate)) (fun s t J => HS s t (or_intror J)) (fun s t J => HT s t (or_intror J)) (S o)) as [lines [E R]].
    destruct (HS a b (or_introl eq_refl)) as [aa [Ea Sa]]. destruct (HT a b (or_introl eq_refl)) as [ab [Eb Tb]].
    cbn [length seq combine mapM fst snd]. rewrite Ea. cbn [bind]. rewrite Eb. cbn [bind]. rewrite E. cbn [bind].
    eexists. split; [reflexivity|]. intros s W. cbn [foldM].
    set (s1 := set s (Sub n (NPipe o)) (OPipe (h a) (h b))).
    assert (X : exec s (SPipe (Sub n (NPipe o)) (source_script n aa) (target_script n ab)) = Ok s1).
    { cbn [ScriptModel.exec]. rewrite core_ok by (apply K; discriminate). cbn [bind].
      rewrite (deref_source _ _ _ _ _ _ W Sa). cbn [bind]. rewrite (deref_target _ _ _ _ _ _ W Tb). reflexivity. }
    rewrite X. cbn [bind].
    assert (W1 : wired n s1 l ids).
    { destruct W as [B I]. split.
      - intros k pb N. unfold s1. cbn [set env]. cbn [name_eqb base_eqb]. rewrite andb_false_r. apply B; auto.
      - intros k u N. unfold s1. cbn [set env]. cbn [name_eqb base_eqb]. rewrite andb_false_r. apply I; auto. }
    destruct (R s1 W1) as [s' [X' [Nx [Dc [Hp [Hk He]]]]]]. exists s'. split; [exact X'|]. split; [rewrite Nx; reflexivity|].
    split; [rewrite Dc; reflexivity|]. split; [rewrite Hp; reflexivity|]. split.
    + intros [|k] p N; cbn [nth_error] in N.
      * inversion N; subst p. rewrite Nat.add_0_r. rewrite He by (intros j Lj Q; inversion Q; lia). unfold s1. cbn [set env].
        rewrite (proj2 (name_eqb_eq _ _) eq_refl). reflexivity.
      * rewrite Nat.add_succ_r. apply Hk; auto.
    + intros y H. rewrite He by (intros j Lj; apply H; lia). unfold s1. cbn [set env].
      destruct (name_eqb (Sub n (NPipe o)) y) eqn:Q; auto. apply name_eqb_eq in Q. exfalso. apply (H o); auto.
Qed.

Lemma collect {A B} (f : A -> res B) (g : nat -> A) (l : list B) : (forall k b, nth_error l k = Some b -> f (g k) = Ok b) -> forall o,
  (forall k b, nth_error l k = Some b -> f (g (o + k)) = Ok b) -> mapM f (map g (seq o (length l))) = Ok l.
Proof.
  intros _. induction l as [|b l IH]; intros o H; cbn [length seq map mapM]; auto.
  rewrite <- (Nat.add_0_r o) at 1. rewrite (H 0 b eq_refl). cbn [bind]. rewrite IH; [reflexivity|].
  intros k c N. specialize (H (S k) c N). rewrite Nat.add_succ_r in H. exact H.
Qed.

(** ** New variables for old *)
Definition pair_with (olds news : list nat) (v : nat) : nat :=
  match index_of Nat.eqb v olds with Some i => nth i news 0 | None => 0 end.

Lemma pair_nth olds news i v : NoDup olds -> nth_error olds i = Some v -> pair_with olds news v = nth i news 0.
Proof.
  intros ND N. unfold pair_with. destruct (index_of Nat.eqb v olds) as [j|] eqn:E.
  - apply (index_of_Some _ nat_eqb_iff) in E. destruct E as [E _]. f_equal.
    rewrite NoDup_nth_error in ND. apply ND; [apply nth_error_Some; congruence|congruence].
  - exfalso. apply (index_of_None _ nat_eqb_iff) in E. apply E. eapply nth_error_In; eauto.
Qed.

Lemma pair_map olds news : NoDup olds -> length olds = length news -> map (pair_with olds news) olds = news.
Proof.
  intros ND L. apply nth_error_ext. intros i. rewrite nth_error_map.
  destruct (nth_error olds i) as [v|] eqn:N; simpl.
  - rewrite (pair_nth _ _ _ _ ND N). symmetry. apply nth_error_nth'. rewrite <- L. apply nth_error_Some. congruence.
  - symmetry. apply nth_error_None. apply nth_error_None in N. lia.
Qed.

Lemma pair_inj olds news u v : NoDup olds -> NoDup news -> length olds = length news -> In u olds -> In v olds ->
  pair_with olds news u = pair_with olds news v -> u = v.
Proof.
  intros ND ND' L Iu Iv E. apply In_nth_error in Iu, Iv. destruct Iu as [i Ni], Iv as [j Nj].
  rewrite (pair_nth _ _ _ _ ND Ni), (pair_nth _ _ _ _ ND Nj) in E.
  assert (Li : i < length news) by (rewrite <- L; apply nth_error_Some; congruence).
  assert (Lj : j < length news) by (rewrite <- L; apply nth_error_Some; congruence).
  assert (i = j) by (eapply NoDup_nth; eauto). subst. congruence.
Qed.

Lemma app_split {A} (a b a' b' : list A) : length a = length a' -> a ++ b = a' ++ b' -> a = a' /\ b = b'.
Proof.
  revert a'. induction a as [|x a IH]; intros [|y a'] L E; try discriminate; auto.
  inversion L. inversion E; subst. destruct (IH a' H0 H2) as [-> ->]. auto.
Qed.

Lemma renamed h (bs bs' : list block) : Forall2 (fun b b' => length (b_in b') = length (b_in b) /\ length (b_out b') = length (b_out b)) bs bs' ->
  map h (flat_map ids_of bs) = flat_map ids_of bs' -> bs' = map (rename_block h) bs.
Proof.
  intros F. induction F as [|b b' bs bs' [Li Lo] F IH]; intros E; auto. cbn [flat_map map] in *. rewrite map_app in E.
  apply app_split in E; [|unfold ids_of; rewrite map_length, !app_length; lia]. destruct E as [E1 E2].
  unfold ids_of in E1. rewrite map_app in E1. apply app_split in E1; [|rewrite map_length; lia]. destruct E1 as [Ei Eo].
  rewrite IH by auto. f_equal. unfold rename_block. rewrite Ei, Eo. destruct b'; reflexivity.
Qed.

Lemma built_lengths info s ps bs l : built_ok info s ps bs l ->
  Forall2 (fun b b' => length (b_in b') = length (b_in b) /\ length (b_out b') = length (b_out b)) bs (map snd l)
  /\ length ps = length bs /\ length l = length bs.
Proof.
  intros B. induction B as [|p b p' b' ps bs l [ins [outs [_ [Li [Lo _]]]]] B [IH1 [IH2 IH3]]]; simpl; auto.
Qed.

Lemma built_parts info s ps bs l : built_ok info s ps bs l -> Forall2 part_back ps (map fst l).
Proof.
  intros B. induction B as [|p b p' b' ps bs l [ins [outs [[PB _] _]]] B IH]; simpl; constructor; auto.
Qed.

Lemma built_nth info s ps bs l : built_ok info s ps bs l -> forall j b, nth_error bs j = Some b ->
  exists p p' b', nth_error ps j = Some p /\ nth_error l j = Some (p', b') /\ placed_block info s p p' b b'.
Proof.
  intros B. induction B; intros [|j] c N; cbn [nth_error] in *; try discriminate.
  - inversion N; subst. eauto 6.
  - eauto.
Qed.

Lemma docs_fold ps doc : fold_left (fun d p => doc_after p d) ps (Some doc)
  = Some (fold_left (fun acc p => match part_doc p with Some x => x | None => acc end) ps doc).
Proof.
  revert doc. induction ps as [|p ps IH]; intros doc; cbn [fold_left]; auto. rewrite <- IH. f_equal.
  unfold doc_after. destruct (part_doc p); reflexivity.
Qed.

Lemma length_flat (bs bs' : list block) : Forall2 (fun b b' => length (b_in b') = length (b_in b) /\ length (b_out b') = length (b_out b)) bs bs' ->
  length (flat_map ids_of bs) = length (flat_map ids_of bs').
Proof. intros F. induction F as [|b b' bs bs' [Li Lo] F IH]; simpl; auto. unfold ids_of at 1 3. rewrite !app_length. lia. Qed.

(** ** A whole workflow *)
Lemma env_other (s : st) x o y : x <> y -> env (set s x o) y = env s y.
Proof. intros H. cbn [set env]. destruct (name_eqb x y) eqn:Q; auto. apply name_eqb_eq in Q. contradiction. Qed.
Lemma env_same (s : st) x o : env (set s x o) x = Some o.
Proof. cbn [set env]. rewrite (proj2 (name_eqb_eq x x) eq_refl). reflexivity. Qed.

Lemma generated n d (info : nat -> variable) (ps : list part) doc nm o : output d = Some o -> wf_script n (Wf d info ps doc nm) =
  (let* a := variable_indices d o in
   let* b := blocks_script (part_script n) n info 0 ps (blocks d) in
   let* pl := pipes_script n d in
   let* out := match a with
               | ANbv _ => Err TypeError
               | APort i _ k => Ok (VOut (Sub n (NBlock i)) k)
               end in
   Ok (fst b ++ map (fun _ => in_core "Variable") (nonblock_variables d)
         ++ (match pipes d with [] => [] | _ => [in_core "Pipe"] end) ++ [in_core "Workflow"],
       SDoc doc :: snd b ++ SBlocks (Sub n NBlocks) (map (fun i => Sub n (NBlock i)) (seq 0 (length (blocks d))))
         :: nbvs_script n (Wf d info ps doc nm) ++ pl
         ++ [SWorkflow (Sub n NWorkflow) (Sub n NBlocks) (Sub n NPipes) out nm])).
Proof. intros E. cbn [wf_script]. rewrite E. reflexivity. Qed.

Lemma workflow_ok d (info : nat -> variable) (ps : list part) doc nm : Forall part_runs ps -> wf_runs (Wf d info ps doc nm).
Proof.
  intros FR [WF [O [A [LK [QD [QN QV]]]]]] K n.
  change (uses (Wf d info ps doc nm)) with
    (in_core "Workflow" :: flat_map part_uses ps ++ (match pipes d with [] => [] | _ => [in_core "Pipe"] end)
       ++ (match nonblock_variables d with [] => [] | _ => [in_core "Variable"] end)) in K.
  destruct (output d) as [o|] eqn:Eo; [|exfalso; apply O; auto].
  assert (KP : pipes d <> [] -> lookup imports "Pipe" = Some (in_core "Pipe")).
  { intros H. apply (K (in_core "Pipe")). right. apply in_or_app. right. apply in_or_app. left.
    destruct (pipes d); [congruence|]. left. reflexivity. }
  assert (KV : nonblock_variables d <> [] -> lookup imports "Variable" = Some (in_core "Variable")).
  { intros H. apply (K (in_core "Variable")). right. apply in_or_app. right. apply in_or_app. right.
    destruct (nonblock_variables d); [congruence|]. left. reflexivity. }
  assert (Gi : forall b v, In b (blocks d) -> In v (b_in b) -> good (info v)) by (intros b v Ib Iv L; eapply LK; eauto).
  destruct (blocks_run info n ps FR (blocks d) 0 A (fun c J => K c (or_intror (in_or_app _ _ _ (or_introl J)))) Gi)
    as [imps [body [Eb Rb]]].
  destruct (output_address d WF (fun v => v) o Eo) as [bo [ko [Ea _]]].
  assert (EP : exists pl, pipes_script n d = Ok (pl ++ [SPipes (Sub n NPipes) (map (fun i => Sub n (NPipe i)) (seq 0 (length (pipes d))))])
    /\ mapM (fun ip : nat * (nat * nat) =>
                    let* a := variable_indices d (fst (snd ip)) in
                    let* b := variable_indices d (snd (snd ip)) in
                    Ok (SPipe (Sub n (NPipe (fst ip))) (source_script n a) (target_script n b))) (enumerate (pipes d)) = Ok pl).
  { unfold pipes_script.
    assert (M : exists pl, mapM (fun ip : nat * (nat * nat) =>
                    let* a := variable_indices d (fst (snd ip)) in
                    let* b := variable_indices d (snd (snd ip)) in
                    Ok (SPipe (Sub n (NPipe (fst ip))) (source_script n a) (target_script n b))) (enumerate (pipes d)) = Ok pl).
    { assert (G : forall l, incl (map snd l) (pipes d) -> exists pl, mapM (fun ip : nat * (nat * nat) =>
                    let* a := variable_indices d (fst (snd ip)) in
                    let* b := variable_indices d (snd (snd ip)) in
                    Ok (SPipe (Sub n (NPipe (fst ip))) (source_script n a) (target_script n b))) l = Ok pl).
      { induction l as [|[i [u t]] l IH]; intros I; [exists []; reflexivity|].
        destruct (IH (fun y J => I y (or_intror J))) as [pl E].
        destruct (source_address d WF (fun v => v) u t (I _ (or_introl eq_refl))) as [a1 [E1 _]].
        destruct (target_address d WF (fun v => v) u t (I _ (or_introl eq_refl))) as [a2 [E2 _]].
        cbn [mapM fst snd]. rewrite E1. cbn [bind]. rewrite E2. cbn [bind]. rewrite E. cbn [bind]. eauto. }
      apply G. rewrite enumerate_snd. apply incl_refl. }
    destruct M as [pl M]. exists pl. rewrite M. split; reflexivity. }
  destruct EP as [pl [EP MP]].
  rewrite (generated n d info ps doc nm o Eo), Ea. cbn [bind]. rewrite Eb. cbn [bind]. rewrite EP. cbn [bind fst snd].
  do 2 eexists. split; [reflexivity|]. intros s. cbn [foldM].
  set (s0 := mkSt (env s) (Some doc) (heap s) (next s)).
  change (exec s (SDoc doc)) with (Ok s0). cbn [bind]. rewrite foldM_app.
  destruct (Rb s0) as [[s1 [l [X1 [[F1 [F2 F3]] [B [Ev [NDl [Rg [D1 Al]]]]]]]]]|[X1 Al]]; rewrite X1; cbn [bind].
  2: { right. split; [reflexivity|]. exact Al. }
  left. destruct (built_lengths _ _ _ _ _ B) as [FL [Lps Ll]].
  set (s2 := set s1 (Sub n NBlocks) (OBlocks l)).
  assert (X2 : exec s1 (SBlocks (Sub n NBlocks) (map (fun i => Sub n (NBlock i)) (seq 0 (length (blocks d))))) = Ok s2).
  { cbn [ScriptModel.exec]. rewrite <- Ll.
    assert (C : forall k pb, nth_error l k = Some pb -> block_of s1 (Sub n (NBlock (0 + k))) = Ok pb).
    { intros k pb N. unfold block_of. rewrite (Ev k pb N). destruct pb as [p' [bi bu]]. reflexivity. }
    rewrite (collect (block_of s1) (fun i => Sub n (NBlock i)) l C 0 C). reflexivity. }
  cbn [foldM]. rewrite X2. cbn [bind]. rewrite foldM_app. unfold nbvs_script. cbn [ScriptModel.info ScriptModel.diagram].
  set (nb := nonblock_variables d) in *.
  destruct (nbvs_run info n nb KV 0 s2) as [s3 [X3 [N3 [D3 [H3 [I3 E3]]]]]].
  change (combine (seq 0 (length nb)) nb) with (enumerate nb) in X3. rewrite X3. cbn [bind].
  set (ids := seq (next s2) (length nb)).
  set (olds := variables d). set (news := flat_map ids_of (map snd l) ++ ids).
  assert (Es : olds = block_variables d ++ nb) by exact (variables_split d WF).
  assert (NDo : NoDup olds) by exact (variables_nodup d WF).
  assert (N2 : next s2 = next s1) by reflexivity.
  assert (NDn : NoDup news).
  { apply NoDup_app; auto; [apply seq_NoDup|]. intros u Iu Ju. apply Rg in Iu. apply in_seq in Ju. lia. }
  assert (Lb : length (block_variables d) = length (flat_map ids_of (map snd l))) by exact (length_flat _ _ FL).
  assert (Lon : length olds = length news).
  { rewrite Es. unfold news, ids. rewrite !app_length, seq_length. lia. }
  set (h := pair_with olds news).
  assert (Mh : map h (block_variables d) = flat_map ids_of (map snd l) /\ map h nb = ids).
  { assert (M := pair_map olds news NDo Lon). fold h in M. rewrite Es, map_app in M. unfold news in M.
    apply app_split in M; auto. rewrite map_length. exact Lb. }
  destruct Mh as [Mb Mn].
  assert (SEP : separates h d) by (intros u v Iu Iv E; exact (pair_inj olds news u v NDo NDn Lon Iu Iv E)).
  assert (Rn : map snd l = map (rename_block h) (blocks d)) by (apply renamed; auto).
  assert (W3 : wired n s3 l ids).
  { split.
    - intros k pb N. rewrite E3 by (intros j _ Q; inversion Q). unfold s2. rewrite env_other by (intros Q; inversion Q). exact (Ev k pb N).
    - intros k u N. assert (Lk : k < length nb) by (rewrite <- (seq_length (length nb) (next s2)); apply nth_error_Some; fold ids; congruence).
      unfold ids in N. rewrite nth_error_seq in N by auto. inversion N; subst u.
      destruct (nth_error nb k) as [v|] eqn:Nv; [|apply nth_error_None in Nv; lia]. exact (proj2 (I3 k v Nv)). }
  destruct (pipes_loop n d h l ids (pipes d) KP) with (o := 0) as [pl' [MP' R4]].
  { intros u t J. rewrite Rn, <- Mn. exact (source_address d WF h u t J). }
  { intros u t J. rewrite Rn, <- Mn. destruct (target_address d WF h u t J) as [a [Ta [Tb _]]]. eauto. }
  change (combine (seq 0 (length (pipes d))) (pipes d)) with (enumerate (pipes d)) in MP'. rewrite MP in MP'. inversion MP'; subst pl'. clear MP'.
  destruct (R4 s3 W3) as [s4 [X4 [N4 [D4 [H4 [P4 E4]]]]]].
  rewrite <- app_assoc, foldM_app, X4. cbn [bind]. cbn [app foldM].
  set (np := map (fun p : nat * nat => (h (fst p), h (snd p))) (pipes d)).
  set (s5 := set s4 (Sub n NPipes) (OPipes np)).
  assert (X5 : exec s4 (SPipes (Sub n NPipes) (map (fun i => Sub n (NPipe i)) (seq 0 (length (pipes d))))) = Ok s5).
  { cbn [ScriptModel.exec]. replace (length (pipes d)) with (length np) by (unfold np; apply map_length).
    set (fp := fun y => match env s4 y with Some (OPipe u v) => Ok (u, v) | Some _ => Err TypeError | None => Err NameError end).
    assert (C : forall k p, nth_error np k = Some p -> fp (Sub n (NPipe (0 + k))) = Ok p).
    { intros k p N. unfold np in N. rewrite nth_error_map in N. destruct (nth_error (pipes d) k) as [q|] eqn:Nq; [|discriminate].
      inversion N; subst p. unfold fp. rewrite (P4 k q Nq). reflexivity. }
    rewrite (collect fp (fun i => Sub n (NPipe i)) np C 0 C). reflexivity. }
  rewrite X5. cbn [bind].
  set (w' := Wf (relabel h d) (heap s5) (map fst l) (last_doc (Wf d info ps doc nm)) nm).
  assert (Hd : heap s5 = heap s3) by (unfold s5; cbn [set heap]; exact H4).
  assert (W5 : wired n s5 l ids).
  { destruct W3 as [Wa Wb]. split.
    - intros k pb N. unfold s5. rewrite env_other by (intros Q; inversion Q). rewrite E4 by (intros j _ Q; inversion Q). auto.
    - intros k u N. unfold s5. rewrite env_other by (intros Q; inversion Q). rewrite E4 by (intros j _ Q; inversion Q). auto. }
  assert (X6 : exec s5 (SWorkflow (Sub n NWorkflow) (Sub n NBlocks) (Sub n NPipes) (VOut (Sub n (NBlock bo)) ko) nm)
             = Ok (set s5 (Sub n NWorkflow) (OWf w'))).
  { cbn [ScriptModel.exec]. rewrite (core_ok "Workflow" (K (in_core "Workflow") (or_introl eq_refl))). cbn [bind].
    assert (Q1 : env s5 (Sub n NBlocks) = Some (OBlocks l)).
    { unfold s5. rewrite env_other by (intros Q; inversion Q). rewrite E4 by (intros j _ Q; inversion Q).
      rewrite E3 by (intros j _ Q; inversion Q). apply env_same. }
    assert (Q2 : env s5 (Sub n NPipes) = Some (OPipes np)) by apply env_same.
    rewrite Q1, Q2.
    destruct (output_address d WF h o Eo) as [b2 [k2 [Ea2 Do]]]. rewrite Ea in Ea2. inversion Ea2; subst b2 k2. clear Ea2.
    assert (Dv : deref s5 (VOut (Sub n (NBlock bo)) ko) = Ok (h o)).
    { apply (deref_source n s5 l ids (APort bo true ko) (h o) W5). rewrite Rn. simpl in Do |- *.
      destruct (nth_error (map (rename_block h) (blocks d)) bo) as [bb|]; [|discriminate]. cbn [of_option bind] in *.
      destruct (nth_error (b_out bb) ko); cbn [of_option bind] in *; [|discriminate]. congruence. }
    rewrite Dv. cbn [bind].
    assert (Dd : docu s5 = Some (last_doc (Wf d info ps doc nm))).
    { unfold s5. cbn [set docu]. rewrite D4, D3. unfold s2. cbn [set docu]. rewrite D1. unfold s0. cbn [docu]. apply docs_fold. }
    rewrite Dd. cbn [of_option bind]. f_equal. f_equal. f_equal. unfold w'. f_equal. unfold relabel. rewrite Rn, Eo. reflexivity. }
  rewrite X6. cbn [bind].
  (* what is known of the new variables *)
  assert (Old : forall u, u < next s1 -> heap s5 u = heap s1 u) by (intros u Lu; rewrite Hd, H3 by lia; reflexivity).
  assert (B5 : built_ok info s5 ps (blocks d) l).
  { eapply built_later; [|exact B]. intros u I. apply Old. apply Rg in I. lia. }
  assert (Hn : forall v, In v nb -> heap s5 (h v) = mkVar None false (v_label (info v))).
  { intros v I. apply In_nth_error in I. destruct I as [k N].
    assert (Lk : k < length nb) by (apply nth_error_Some; congruence).
    assert (Q : nth_error (map h nb) k = Some (h v)) by (rewrite nth_error_map, N; reflexivity).
    rewrite Mn in Q. unfold ids in Q. rewrite nth_error_seq in Q by auto. inversion Q. rewrite Hd. exact (proj1 (I3 k v N)). }
  assert (PortIn : forall j b p p' b' k v, nth_error (blocks d) j = Some b -> nth_error l j = Some (p', b') ->
             placed_block info s5 p p' b b' -> nth_error (b_in b) k = Some v -> nth_error (b_in b') k = Some (h v)).
  { intros j b p p' b' k v Nb Nl _ Nv. assert (Q : nth_error (map snd l) j = Some b') by (rewrite nth_error_map, Nl; reflexivity).
    rewrite Rn, nth_error_map, Nb in Q. inversion Q. cbn [rename_block b_in]. rewrite nth_error_map, Nv. reflexivity. }
  assert (PortOut : forall j b p p' b' k v, nth_error (blocks d) j = Some b -> nth_error l j = Some (p', b') ->
             placed_block info s5 p p' b b' -> nth_error (b_out b) k = Some v -> nth_error (b_out b') k = Some (h v)).
  { intros j b p p' b' k v Nb Nl _ Nv. assert (Q : nth_error (map snd l) j = Some b') by (rewrite nth_error_map, Nl; reflexivity).
    rewrite Rn, nth_error_map, Nb in Q. inversion Q. cbn [rename_block b_out]. rewrite nth_error_map, Nv. reflexivity. }
  exists (set s5 (Sub n NWorkflow) (OWf w')), w'. split; [reflexivity|]. split; [|split; [|split; [|split; [|split]]]].
  - split; [|split].
    + cbn [set next]. change (next s <= next s4). rewrite N4, N3, N2. unfold s0 in F1. cbn [next] in F1. lia.
    + intros v L. cbn [set heap]. change (heap s5 v = heap s v). rewrite Old by (unfold s0 in F1; cbn [next] in F1; lia). apply F2. exact L.
    + intros x T. rewrite env_other by (intros <-; apply T; simpl; lia). unfold s5.
      rewrite env_other by (intros <-; apply T; simpl; lia).
      rewrite E4 by (intros j _ ->; apply T; simpl; lia). rewrite E3 by (intros j _ ->; apply T; simpl; lia).
      unfold s2. rewrite env_other by (intros <-; apply T; simpl; lia). apply F3.
      * intros H. apply T. destruct x; simpl in *; [lia|auto].
      * intros j _ ->. apply T. simpl. lia.
  - apply env_same.
  - split; [|split; [|split; [|split]]].
    + unfold w'. apply cb_wf; auto.
      * exact (built_parts _ _ _ _ _ B5).
      * intros j b p' Nb Np. destruct (built_nth _ _ _ _ _ B5 j b Nb) as [p [p2 [b' [Np1 [Nl PBk]]]]].
        rewrite nth_error_map, Nl in Np. inversion Np; subst p2.
        assert (PBk' := PBk). destruct PBk as [ins [outs [[_ [C _]] [Li [Lo [Hi Ho]]]]]]. exists ins, outs. split; [exact C|]. split.
        -- intros k v Nv. destruct (Hi k v (h v) Nv (PortIn j b p p' b' k v Nb Nl PBk' Nv)) as [x [Nx [Hx _]]]. eauto.
        -- intros k v Nv. exact (Ho k (h v) (PortOut j b p p' b' k v Nb Nl PBk' Nv)).
    + unfold w'. cbn [diagram]. rewrite (inputs_map d WF h SEP). apply map_length.
    + unfold w'. cbn [diagram]. unfold relabel. cbn [output]. rewrite Eo. discriminate.
    + intros i v' N. unfold w' in *. cbn [diagram ScriptModel.info] in *. rewrite (inputs_map d WF h SEP), nth_error_map in N.
      destruct (nth_error (inputs d) i) as [v|] eqn:Nv; [|discriminate]. inversion N; subst v'.
      assert (I := nth_error_In _ _ Nv). apply (inputs_In d WF) in I. destruct I as [[b [Ib [Iv _]]]|I].
      * apply In_nth_error in Ib, Iv. destruct Ib as [j Nb]. destruct Iv as [k Nk].
        destruct (built_nth _ _ _ _ _ B5 j b Nb) as [p [p' [b' [Np [Nl PBk]]]]]. assert (PBk' := PBk).
        destruct PBk as [ins [outs [[_ [C [_ [_ [Gx KD]]]]] [Li [Lo [Hi Ho]]]]]].
        destruct (Hi k v (h v) Nk (PortIn j b p p' b' k v Nb Nl PBk' Nk)) as [x [Nx [Hx Hl]]]. rewrite Hx. split.
        -- intros L. cbn [v_lock v_default] in *. apply orb_true_iff in L. destruct L as [L|L]; auto.
           apply (Gx x); auto. apply in_or_app. left. eapply nth_error_In; eauto.
        -- cbn [v_default]. rewrite (KD k x Nx). split.
           ++ intros H. eapply id_port; cbn [diagram parts]; eauto.
           ++ intros H. inversion H as [w0 i0 v0 j0 b0 k0 q0 A1 A2 A3 A4 A5]; subst. cbn [diagram parts] in *.
              assert (v0 = v) by congruence. subst v0.
              assert (Q1 := indices_port d WF j b false k v Nb Nk). assert (Q2 := indices_port d WF j0 b0 false k0 v A2 A3).
              rewrite Q1 in Q2. inversion Q2; subst j0 k0. congruence.
      * assert (I' : In v nb) by (apply (nbv_In d WF); exact I). rewrite (Hn v I'). split; [intros L; discriminate L|].
        cbn [v_default]. split; [congruence|]. intros H. inversion H as [w0 i0 v0 j0 b0 k0 q0 A1 A2 A3 A4 A5]; subst. cbn [diagram parts] in *.
        assert (v0 = v) by congruence. subst v0. exfalso. apply (proj2 I). apply in_block_variables. exists b0.
        split; [eapply nth_error_In; eauto|left; eapply nth_error_In; eauto].
    + intros o' E. unfold w' in *. cbn [diagram ScriptModel.info] in *. unfold relabel in E. cbn [output] in E. rewrite Eo in E. inversion E; subst o'.
      destruct (wf_output d WF o Eo) as [b [Ib Io]]. apply In_nth_error in Ib, Io. destruct Ib as [j Nb]. destruct Io as [k Nk].
      destruct (built_nth _ _ _ _ _ B5 j b Nb) as [p [p' [b' [Np [Nl PBk]]]]]. assert (PBk' := PBk).
      destruct PBk as [ins [outs [[_ [C [_ [_ [Gx KD]]]]] [Li [Lo [Hi Ho]]]]]].
      apply Gx. apply in_or_app. right. eapply nth_error_In. exact (Ho k (h o) (PortOut j b p p' b' k o Nb Nl PBk' Nk)).
  - cbn [set docu]. unfold s5. cbn [set docu]. rewrite D4, D3. unfold s2. cbn [set docu]. rewrite D1. unfold s0. cbn [docu]. apply docs_fold.
  - exact Al.
  - destruct W5 as [Wa Wb]. unfold w'. split; cbn [diagram]; [intros j b N|intros k v N]; rewrite env_other by (intros Q; inversion Q).
    + change (blocks (relabel h d)) with (map (rename_block h) (blocks d)) in N. rewrite <- Rn, nth_error_map in N.
      destruct (nth_error l j) as [[p' b']|] eqn:Nl; [|discriminate]. inversion N; subst b'. exists p'. exact (Wa j _ Nl).
    + rewrite (nbv_map d WF h SEP) in N. fold nb in N. rewrite Mn in N. exact (Wb k v N).
Qed.

Lemma wf_runs_all w : wf_runs w.
Proof.
  apply (wf_ind' wf_runs part_runs).
  - intros. apply workflow_ok. auto.
  - intros. apply conf_runs.
  - intros. apply workflow_runs. auto.
  - intros. apply foreach_runs. auto.
Qed.
End E.

(** Proofs about generators of models from decision trees. *)
From Coq Require Import List Bool Arith Lia Sorted.
From Verif Require Import Base TreesModel TreesSpec.
Import ListNotations.

Lemma app_unit_inv {A} (p : list A) i s v k : v ++ [k] = p ++ i :: s -> (s = [] /\ p = v /\ i = k) \/ exists s', s = s' ++ [k] /\ v = p ++ i :: s'.
Proof.
  intros E. destruct (exists_last (l := i :: s) ltac:(discriminate)) as (s' & x & F). rewrite F, app_assoc in E. apply app_inj_tail in E. destruct E as [E ->].
  destruct s' as [|j s']; cbn in F; injection F as -> F.
  - left. rewrite app_nil_r in E. auto.
  - right. exists s'. auto.
Qed.

Section Engine.
Variable ok : list nat -> bool.
Variable kids : list nat -> nat.
Notation reached := (reached ok kids).

Fixpoint gup (r : list nat) : option (list nat) :=
  match r with
  | [] => None
  | d :: r => if S d <? kids (rev r) then Some (rev (S d :: r)) else gup r
  end.
Definition gnext (v : list nat) : option (list nat) :=
  if ok v && negb (kids v =? 0) then Some (v ++ [0]) else gup (rev v).
Inductive trace : option (list nat) -> list (list nat) -> option (list nat) -> Prop :=
| trace_nil c : trace c [] c
| trace_cons v l c : trace (gnext v) l c -> trace (Some v) (v :: l) c.
Lemma trace_app a l b m c : trace a l b -> trace b m c -> trace a (l ++ m) c.
Proof. induction 1; intros; cbn; [auto|]. constructor. auto. Qed.

Fixpoint preorder (n : nat) (v : list nat) : list (list nat) :=
  match n with
  | 0 => [v]
  | S n => v :: if ok v then flat_map (fun i => preorder n (v ++ [i])) (seq 0 (kids v)) else []
  end.

Lemma reached_child v i : reached v -> ok v = true -> i < kids v -> reached (v ++ [i]).
Proof.
  intros R O L p j s E. destruct (app_unit_inv _ _ _ _ _ E) as [(-> & -> & ->)|(s' & -> & ->)]; [auto|]. apply (R p j s'). auto.
Qed.
Lemma reached_nil : reached [].
Proof. intros p i s E. destruct p; discriminate. Qed.

Lemma gup_child v i : gup (rev (v ++ [i])) = if S i <? kids v then Some (v ++ [S i]) else gup (rev v).
Proof. rewrite rev_app_distr. cbn [rev app gup]. rewrite rev_involutive. reflexivity. Qed.

Section Bounded.
Variable D : nat.
Hypothesis B : forall v, D <= List.length v -> reached v -> ok v = true -> kids v = 0.

Lemma subtree n : forall v, reached v -> D - List.length v <= n -> trace (Some v) (preorder n v) (gup (rev v)).
Proof.
  induction n as [|n IH]; intros v R L.
  - cbn [preorder]. constructor. unfold gnext. destruct (ok v) eqn:O; cbn [andb]; [|constructor]. rewrite (B v) by (auto; lia). constructor.
  - cbn [preorder]. constructor. unfold gnext. destruct (ok v) eqn:O; cbn [andb]; [|constructor]. destruct (Nat.eqb_spec (kids v) 0) as [E|E]; cbn [negb].
    + rewrite E. constructor.
    + assert (G : forall k i, i + S k = kids v -> trace (Some (v ++ [i])) (flat_map (fun i => preorder n (v ++ [i])) (seq i (S k))) (gup (rev v))).
      { induction k as [|k IHk]; intros i Ei; cbn [seq flat_map].
        - rewrite app_nil_r. assert (T := IH (v ++ [i])). rewrite gup_child in T. destruct (Nat.ltb_spec (S i) (kids v)); [lia|]. apply T; [apply reached_child; auto; lia|].
          rewrite app_length. cbn. lia.
        - eapply trace_app; [apply IH; [apply reached_child; auto; lia|rewrite app_length; cbn; lia]|]. rewrite gup_child. destruct (Nat.ltb_spec (S i) (kids v)); [|lia].
          apply IHk. lia. }
      destruct (kids v) as [|k] eqn:K; [congruence|]. apply G. lia.
Qed.

Definition leafb (v : list nat) : bool := ok v && (kids v =? 0).
Lemma preorder_reached n : forall v w, reached v -> In w (preorder n v) -> reached w /\ exists s, w = v ++ s.
Proof.
  induction n as [|n IH]; intros v w R I; cbn [preorder] in I.
  - destruct I as [<-|[]]. split; auto. exists []. rewrite app_nil_r. auto.
  - destruct I as [<-|I]; [split; auto; exists []; rewrite app_nil_r; auto|]. destruct (ok v) eqn:O; [|destruct I]. apply in_flat_map in I. destruct I as (i & I & J).
    apply in_seq in I. destruct (IH (v ++ [i]) w) as [W [s ->]]; [apply reached_child; auto; lia|auto|]. split; auto. exists (i :: s). rewrite <- app_assoc. reflexivity.
Qed.
Lemma preorder_complete n : forall v s, reached (v ++ s) -> D - List.length v <= n -> In (v ++ s) (preorder n v).
Proof.
  induction n as [|n IH]; intros v s R L; cbn [preorder].
  - destruct s as [|i s]; [left; rewrite app_nil_r; auto|]. exfalso. destruct (R v i s eq_refl) as [O K].
    assert (Rv : reached v). { intros p j t E. apply (R p j (t ++ i :: s)). rewrite E, <- app_assoc. reflexivity. }
    rewrite (B v) in K by (auto; lia). lia.
  - destruct s as [|i s]; [left; rewrite app_nil_r; auto|]. right. destruct (R v i s eq_refl) as [O K]. rewrite O. apply in_flat_map. exists i. split; [apply in_seq; lia|].
    replace (v ++ i :: s) with ((v ++ [i]) ++ s) in * by (rewrite <- app_assoc; reflexivity). apply IH; auto. rewrite app_length. cbn. lia.
Qed.
Lemma sorted_app {A} (R : A -> A -> Prop) l m : StronglySorted R l -> StronglySorted R m -> (forall x y, In x l -> In y m -> R x y) -> StronglySorted R (l ++ m).
Proof.
  induction l as [|x l IH]; intros S T H; [auto|]. inversion S; subst. cbn. constructor; [apply IH; auto; intros; apply H; auto; right; auto|].
  apply Forall_app. split; [auto|]. apply Forall_forall. intros y I. apply H; [left|]; auto.
Qed.
Lemma preorder_sorted n : forall v, reached v -> D - List.length v <= n -> StronglySorted lex (filter leafb (preorder n v)).
Proof.
  induction n as [|n IH]; intros v R L; cbn [preorder filter].
  - destruct (leafb v); repeat constructor.
  - destruct (ok v) eqn:O; [|destruct (leafb v); repeat constructor]. unfold leafb at 1. rewrite O. cbn [andb]. destruct (Nat.eqb_spec (kids v) 0) as [->|K]; [repeat constructor|].
    assert (G : forall k i, i + k <= kids v -> StronglySorted lex (filter leafb (flat_map (fun i => preorder n (v ++ [i])) (seq i k)))).
    { induction k as [|k IHk]; intros i Ei; cbn [seq flat_map]; [constructor|]. rewrite filter_app. apply sorted_app.
      - apply IH; [apply reached_child; auto; lia|rewrite app_length; cbn; lia].
      - apply IHk. lia.
      - intros x y X Y. apply filter_In in X. apply filter_In in Y. destruct X as [X _], Y as [Y _]. apply in_flat_map in Y. destruct Y as (j & J & Y). apply in_seq in J.
        destruct (preorder_reached n (v ++ [i]) x) as [_ [s ->]]; [apply reached_child; auto; lia|auto|].
        destruct (preorder_reached n (v ++ [j]) y) as [_ [t ->]]; [apply reached_child; auto; lia|auto|].
        exists v, i, j, s, t. rewrite <- !app_assoc. repeat split; auto. lia. }
    apply G. lia.
Qed.
Lemma leaves_all : all_leaves ok kids (filter leafb (preorder D [])).
Proof.
  split; [apply preorder_sorted; [apply reached_nil|cbn; lia]|]. intros v. rewrite filter_In. unfold leafb, leaf. rewrite andb_true_iff, Nat.eqb_eq. split.
  - intros [I [O K]]. destruct (preorder_reached D [] v reached_nil I). auto.
  - intros (R & O & K). split; auto. apply (preorder_complete D [] v); auto. cbn. lia.
Qed.
End Bounded.
End Engine.

(** ** Trees *)
Lemma replace_nth_nth l : forall k x j, k < List.length l -> nth j (replace_nth k x l) 0 = if j =? k then x else nth j l 0.
Proof. induction l as [|y l IH]; intros [|k] x [|j] L; cbn in *; try lia; auto. apply IH. lia. Qed.
Lemma replace_nth_length l : forall k x, List.length (replace_nth k x l) = List.length l.
Proof. induction l as [|y l IH]; intros [|k] x; cbn; auto. Qed.

Section Decision.
Context {M : Type}.
Variable model_from_vector : list nat -> res M.
Variable is_vector_valid : list nat -> bool.
Variable is_model_valid : M -> bool.
Variable number_possibilities : M -> nat.
Notation turn := (turn model_from_vector is_vector_valid is_model_valid number_possibilities).

Definition ok (v : list nat) : bool := is_vector_valid v && match model_from_vector v with Ok m => is_model_valid m | Err _ => false end.
Definition kids (v : list nat) : nat := match model_from_vector v with Ok m => number_possibilities m | Err _ => 0 end.
Notation reached := (reached ok kids).
Hypothesis DEF : forall v, reached v -> is_vector_valid v = true -> exists m, model_from_vector v = Ok m.

(** The numbers of possibilities by depth are those of the nodes above. *)
Definition agrees (l v : list nat) : Prop := List.length v <= List.length l /\ forall k, k < List.length v -> nth k l 0 = kids (firstn k v).

Lemma up_gup l r : agrees l (rev r) -> up l r = gup kids r.
Proof.
  induction r as [|d r IH]; intros A; [reflexivity|]. cbn [up gup]. destruct A as [L A]. cbn [rev] in *. rewrite app_length in *. cbn [List.length] in *.
  rewrite (A (List.length r)) by (rewrite rev_length; lia). rewrite firstn_app. rewrite rev_length, Nat.sub_diag. cbn [firstn]. rewrite app_nil_r.
  rewrite firstn_all2 by (rewrite rev_length; lia). destruct (S d <? kids (rev r)); [reflexivity|]. apply IH. split; [lia|]. intros k K. rewrite A by lia. f_equal.
  rewrite firstn_app. replace (k - List.length (rev r)) with 0 by lia. cbn [firstn]. rewrite app_nil_r. reflexivity.
Qed.
Lemma gup_prefix r v : gup kids r = Some v -> exists a d s, rev r = a ++ d :: s /\ v = a ++ [S d].
Proof.
  induction r as [|d r IH]; intros E; cbn [gup] in E; [discriminate|]. destruct (S d <? kids (rev r)).
  - injection E as <-. exists (rev r), d, []. split; reflexivity.
  - destruct (IH E) as (a & e & s & F & ->). exists a, e, (s ++ [d]). cbn [rev]. rewrite F, <- app_assoc. auto.
Qed.

Definition state_of (c : option (list nat)) (t : tree) : Prop :=
  match c with
  | Some v => node t = v /\ finished t = false /\ agrees (nps t) v
  | None => finished t = true
  end.

Lemma go_up_state t : finished t = false -> agrees (nps t) (node t) -> state_of (gup kids (rev (node t))) (go_up t).
Proof.
  intros F A. unfold go_up. rewrite up_gup by (rewrite rev_involutive; auto). destruct (gup kids (rev (node t))) as [v|] eqn:G; cbn; [|auto].
  split; auto. split; auto. destruct (gup_prefix _ _ G) as (a & d & s & E & ->). rewrite rev_involutive in E. destruct A as [L A]. rewrite E in *.
  rewrite app_length in *. cbn in *. split; [rewrite app_length; cbn; lia|]. intros k K. rewrite app_length in K. cbn in K. rewrite A by lia. f_equal. rewrite !firstn_app.
  destruct (Nat.eq_dec k (List.length a)) as [->|]; [rewrite Nat.sub_diag; reflexivity|]. replace (k - List.length a) with 0 by lia. reflexivity.
Qed.

Lemma set_agrees n t : agrees (nps t) (node t) -> agrees (nps (set_possibilities n t)) (node t) /\
  nth (List.length (node t)) (nps (set_possibilities n t)) 0 = n /\ S (List.length (node t)) <= List.length (nps (set_possibilities n t)).
Proof.
  intros [L A]. unfold set_possibilities. cbn [nps]. destruct (Nat.ltb_spec (List.length (node t)) (List.length (nps t))) as [H|H].
  - rewrite replace_nth_length. split; [split; [rewrite replace_nth_length; auto|]|].
    + intros k K. rewrite replace_nth_nth by auto. destruct (Nat.eqb_spec k (List.length (node t))); [lia|auto].
    + split; [|lia]. rewrite replace_nth_nth by auto. rewrite Nat.eqb_refl. reflexivity.
  - rewrite app_length. cbn. assert (E : List.length (nps t) = List.length (node t)) by lia. split; [split; [rewrite app_length; cbn; lia|]|].
    + intros k K. rewrite app_nth1 by lia. auto.
    + split; [|lia]. rewrite app_nth2 by lia. rewrite E, Nat.sub_diag. reflexivity.
Qed.

Definition out (v : list nat) : list M := if leafb ok kids v then match model_from_vector v with Ok m => [m] | Err _ => [] end else [].

Lemma turn_state v t : reached v -> state_of (Some v) t -> exists t', turn t = Ok (out v, t') /\ state_of (gnext ok kids v) t'.
Proof.
  intros R (E & F & A). subst v. unfold TreesModel.turn, out, leafb, gnext. assert (O : ok (node t) = ok (node t)) by reflexivity. unfold ok at 2 in O.
  destruct (is_vector_valid (node t)) eqn:V; cbn [andb] in O.
  - destruct (DEF _ R V) as [m Em]. rewrite Em in *. cbn [bind]. rewrite O. assert (K : kids (node t) = number_possibilities m) by (unfold kids; rewrite Em; reflexivity). rewrite K.
    destruct (is_model_valid m) eqn:Vm; cbn [andb].
    + destruct (set_agrees (number_possibilities m) t A) as (A1 & A2 & A3). eexists. split; [reflexivity|]. unfold next_node. cbn [andb].
      replace (node (set_possibilities (number_possibilities m) t)) with (node t) by reflexivity. rewrite A2. destruct (Nat.eqb_spec (number_possibilities m) 0) as [Z|Z]; cbn [negb].
      * apply (go_up_state (set_possibilities (number_possibilities m) t)); auto.
      * split; [reflexivity|]. split; [exact F|]. cbn [nps]. split; [rewrite app_length; cbn [List.length]; lia|]. intros k L. rewrite app_length in L. cbn in L.
        rewrite firstn_app. destruct (Nat.eq_dec k (List.length (node t))) as [->|N].
        -- rewrite Nat.sub_diag, firstn_all. cbn [firstn]. rewrite app_nil_r. rewrite K. exact A2.
        -- replace (k - List.length (node t)) with 0 by lia. cbn [firstn]. rewrite app_nil_r. apply A1. lia.
    + eexists. split; [reflexivity|]. unfold next_node. cbn [andb]. apply go_up_state; auto.
  - rewrite O. cbn [andb]. eexists. split; [reflexivity|]. unfold next_node. cbn [andb]. apply go_up_state; auto.
Qed.

Lemma loop_trace c l : trace ok kids c l None -> Forall reached l -> forall t, state_of c t ->
  exists t', loop turn (S (List.length l)) t = Ok (flat_map out l, t') /\ finished t' = true.
Proof.
  intros T. remember None as e eqn:Ee. induction T as [c|v l c T IH]; intros FR t S.
  - subst c. cbn in S. exists t. cbn [loop List.length]. rewrite S. auto.
  - inversion FR as [|? ? Rv FR']; subst. destruct (turn_state v t Rv S) as (t1 & E1 & S1). destruct S as (_ & F & _).
    destruct (IH eq_refl FR' t1 S1) as (t2 & E2 & F2). exists t2. split; [|auto]. change (loop turn (S (List.length (v :: l))) t) with (if finished t then Ok ([], t) else let* r := turn t in let* s := loop turn (S (List.length l)) (snd r) in Ok (fst r ++ fst s, snd s)). rewrite F, E1. cbn [bind fst snd].
    rewrite E2. reflexivity.
Qed.
Lemma flat_out l : flat_map out l = flat_map out (filter (leafb ok kids) l).
Proof.
  induction l as [|v l IH]; [reflexivity|]. cbn [flat_map filter]. destruct (leafb ok kids v) eqn:E; cbn [flat_map]; rewrite IH; [reflexivity|].
  unfold out at 1. rewrite E. reflexivity.
Qed.
Lemma out_models l : Forall (fun v => leafb ok kids v = true) l -> mapM model_from_vector l = Ok (flat_map out l).
Proof.
  induction 1 as [|v l H F IH]; [reflexivity|]. cbn [mapM flat_map]. rewrite IH.
  replace (out v) with (match model_from_vector v with Ok m => [m] | Err _ => [] end) by (unfold out; rewrite H; reflexivity). unfold leafb, ok in H. destruct (model_from_vector v) as [m|e] eqn:E.
  - reflexivity.
  - rewrite andb_false_r in H. discriminate.
Qed.

Lemma preorder_forall D : (forall v, D <= List.length v -> reached v -> ok v = true -> kids v = 0) -> Forall reached (preorder ok kids D []).
Proof. intros B. apply Forall_forall. intros v I. apply (preorder_reached ok kids D [] v (reached_nil ok kids) I). Qed.

Lemma generate_gen D : (forall v, D <= List.length v -> reached v -> ok v = true -> kids v = 0) -> (exists m, model_from_vector [] = Ok m) ->
  exists vs ms n t', all_leaves ok kids vs /\ mapM model_from_vector vs = Ok ms /\ finished t' = true /\
    generate model_from_vector is_vector_valid is_model_valid number_possibilities n new_tree = Ok (ms, t').
Proof.
  intros B [m0 E0]. exists (filter (leafb ok kids) (preorder ok kids D [])). exists (flat_map out (filter (leafb ok kids) (preorder ok kids D []))).
  destruct (loop_trace (Some []) (preorder ok kids D []) (subtree ok kids D B D [] (reached_nil ok kids) ltac:(cbn; lia)) (preorder_forall D B)
    (set_possibilities (number_possibilities m0) new_tree)) as (t' & E & F).
  { split; [reflexivity|]. split; [reflexivity|]. split; [cbn; lia|]. intros k K. cbn in K. lia. }
  exists (S (List.length (preorder ok kids D []))), t'. split; [apply leaves_all; auto|]. split.
  - apply out_models. apply Forall_forall. intros v I. apply filter_In in I. apply I.
  - split; [auto|]. unfold generate. cbn [node new_tree]. rewrite E0. cbn [bind]. rewrite E. rewrite <- flat_out. reflexivity.
Qed.
End Decision.

Lemma loop_more {M} (turn : tree -> res (list M * tree)) n : forall t r, loop turn n t = Ok r -> forall k, n <= k -> loop turn k t = Ok r.
Proof.
  induction n as [|n IH]; intros t r E k L; [discriminate|]. destruct k as [|k]; [lia|]. cbn [loop] in *. destruct (finished t); [auto|].
  destruct (turn t) as [[o t1]|e]; cbn [bind] in *; [|discriminate]. cbn [fst snd] in *. destruct (loop turn n t1) as [[ms t2]|e] eqn:G; cbn [bind] in E; [|discriminate].
  rewrite (IH _ _ G k) by lia. exact E.
Qed.

Section Regular.
Context {M : Type}.
Variable model_from_vector : list nat -> res M.
Variable is_vector_valid : list nat -> bool.
Variable is_model_valid : M -> bool.
Variable np : list nat.
Hypothesis NE : np <> [].
Hypothesis POS : Forall (fun n => 0 < n) np.
Definition rvalid (v : list nat) : bool := is_vector_valid v && match model_from_vector v with Ok m => is_model_valid m | Err _ => false end.
Definition rok (v : list nat) : bool := match v with [] => true | _ => rvalid v end.
Definition rkids (v : list nat) : nat := nth (List.length v) np 0.
Notation reached := (TreesSpec.reached rok rkids).
Notation turn := (regular_turn model_from_vector is_vector_valid is_model_valid (List.length np - 1)).
Hypothesis DEF : forall v, v <> [] -> reached v -> is_vector_valid v = true -> exists m, model_from_vector v = Ok m.

Lemma rkids_zero v : rkids v = 0 <-> List.length np <= List.length v.
Proof.
  unfold rkids. split; [|apply nth_overflow]. intros E. destruct (Nat.le_gt_cases (List.length np) (List.length v)) as [|L]; [auto|]. exfalso.
  assert (P := proj1 (Forall_forall _ _) POS (nth (List.length v) np 0) (nth_In _ _ L)). cbn in P. lia.
Qed.
Lemma reached_length v : reached v -> List.length v <= List.length np.
Proof.
  intros R. destruct v as [|x v] using rev_ind; [cbn; lia|]. destruct (R v x [] eq_refl) as [_ K]. rewrite app_length. cbn. destruct (Nat.le_gt_cases (List.length np) (List.length v)) as [L|L]; [|lia].
  rewrite (proj2 (rkids_zero v) L) in K. lia.
Qed.
Lemma up_rgup r : up np r = gup rkids r.
Proof. induction r as [|d r IH]; [reflexivity|]. cbn [up gup]. unfold rkids at 1. rewrite rev_length, IH. reflexivity. Qed.
Definition rstate (c : option (list nat)) (t : tree) : Prop :=
  nps t = np /\ match c with Some v => node t = v /\ finished t = false | None => finished t = true end.
Lemma rgo_up t : nps t = np -> finished t = false -> rstate (gup rkids (rev (node t))) (go_up t).
Proof. intros N F. unfold go_up. rewrite N, up_rgup. destruct (gup _ _); repeat split; auto. Qed.
Definition rout (v : list nat) : list M := if leafb rok rkids v then match model_from_vector v with Ok m => [m] | Err _ => [] end else [].
Lemma rturn v t : v <> [] -> reached v -> rstate (Some v) t -> exists t', turn t = Ok (rout v, t') /\ rstate (gnext rok rkids v) t'.
Proof.
  intros V R (N & E & F). assert (O : rok v = rvalid v) by (destruct v; [congruence|reflexivity]). subst v. unfold regular_turn, rout, leafb, gnext. rewrite O. unfold rvalid.
  assert (NEX : forall b, rstate (if b && negb (rkids (node t) =? 0) then Some (node t ++ [0]) else gup rkids (rev (node t))) (next_regular_node b t)).
  { intros b. unfold next_regular_node. rewrite N. destruct b; cbn [andb]; [|apply rgo_up; auto].
    destruct (Nat.eqb_spec (rkids (node t)) 0) as [Z|Z]; destruct (Nat.ltb_spec (List.length (node t)) (List.length np)) as [L|L]; cbn [negb].
    - apply rkids_zero in Z. lia.
    - apply rgo_up; auto.
    - repeat split; auto.
    - apply rkids_zero in L. congruence. }
  destruct (is_vector_valid (node t)) eqn:W; cbn [andb].
  - destruct (DEF _ V R W) as [m Em]. rewrite Em. cbn [bind]. exists (next_regular_node (is_model_valid m) t). split; [|apply NEX]. f_equal. f_equal.
    destruct (is_model_valid m); cbn [andb]; [|reflexivity]. assert (LR := reached_length _ R). assert (0 < List.length np) by (destruct np; [congruence|cbn; lia]).
    destruct (Nat.eqb_spec (rkids (node t)) 0) as [Z|Z]; destruct (Nat.eqb_spec (List.length (node t)) (S (List.length np - 1))) as [L|L]; try reflexivity.
    + apply rkids_zero in Z. lia.
    + exfalso. apply Z. apply rkids_zero. lia.
  - exists (next_regular_node false t). split; [reflexivity|apply (NEX false)].
Qed.
Lemma rloop c l : trace rok rkids c l None -> Forall (fun v => v <> [] /\ reached v) l -> forall t, rstate c t ->
  exists t', loop turn (S (List.length l)) t = Ok (flat_map rout l, t') /\ finished t' = true.
Proof.
  intros T. remember None as e eqn:Ee. induction T as [c|v l c T IH]; intros FR t S.
  - subst c. destruct S as [_ S]. exists t. cbn [loop List.length]. rewrite S. auto.
  - inversion FR as [|? ? [Vv Rv] FR']; subst. destruct (rturn v t Vv Rv S) as (t1 & E1 & S1). destruct S as (_ & _ & F).
    destruct (IH eq_refl FR' t1 S1) as (t2 & E2 & F2). exists t2. split; [|auto].
    change (loop turn (Datatypes.S (List.length (v :: l))) t) with (if finished t then Ok ([], t) else let* r := turn t in let* s := loop turn (Datatypes.S (List.length l)) (snd r) in Ok (fst r ++ fst s, snd s)).
    rewrite F, E1. cbn [bind fst snd]. rewrite E2. reflexivity.
Qed.
Lemma flat_rout l : flat_map rout l = flat_map rout (filter (leafb rok rkids) l).
Proof.
  induction l as [|v l IH]; [reflexivity|]. cbn [flat_map filter]. destruct (leafb rok rkids v) eqn:E; cbn [flat_map]; rewrite IH; [reflexivity|].
  unfold rout at 1. rewrite E. reflexivity.
Qed.
Lemma rout_models l : Forall (fun v => v <> [] /\ leafb rok rkids v = true) l -> mapM model_from_vector l = Ok (flat_map rout l).
Proof.
  induction 1 as [|v l [V H] F IH]; [reflexivity|]. cbn [mapM flat_map]. rewrite IH.
  replace (rout v) with (match model_from_vector v with Ok m => [m] | Err _ => [] end) by (unfold rout; rewrite H; reflexivity). unfold leafb in H. destruct v as [|x v]; [congruence|].
  unfold rok, rvalid in H. destruct (model_from_vector (x :: v)) as [m|e] eqn:E.
  - reflexivity.
  - rewrite andb_false_r in H. discriminate.
Qed.
Lemma rbound v : List.length np <= List.length v -> reached v -> rok v = true -> rkids v = 0.
Proof. intros L _ _. apply rkids_zero. auto. Qed.

Lemma tail_visited v l : In v (flat_map (fun i => preorder rok rkids (List.length np - 1) ([] ++ [i])) l) -> (forall i, In i l -> i < rkids []) -> v <> [] /\ reached v.
Proof.
  intros I B. apply in_flat_map in I. destruct I as (i & I & J).
  destruct (preorder_reached rok rkids (List.length np - 1) ([] ++ [i]) v) as [R [s ->]]; [|auto|split; [discriminate|auto]].
  apply reached_child; [apply reached_nil|reflexivity|auto].
Qed.
Lemma regular_gen : exists vs ms n t', all_leaves rok rkids vs /\ mapM model_from_vector vs = Ok ms /\ finished t' = true /\
    regular_generate model_from_vector is_vector_valid is_model_valid np n (regular_tree np) = Ok (ms, t').
Proof.
  assert (P : 0 < List.length np) by (destruct np; [congruence|cbn; lia]).
  assert (K0 : rkids [] <> 0). { intros Z. apply rkids_zero in Z. cbn in Z. lia. }
  assert (T := subtree rok rkids (List.length np) rbound (List.length np) [] (reached_nil rok rkids) ltac:(cbn; lia)).
  assert (A := leaves_all rok rkids (List.length np) rbound).
  destruct (List.length np) as [|d] eqn:D; [lia|]. cbn [preorder rok] in T, A. inversion T as [|? ? ? T1]; subst.
  unfold gnext in T1. cbn [rok andb rev gup] in T1. destruct (Nat.eqb_spec (rkids []) 0) as [Z|_]; [congruence|]. cbn [negb app] in T1.
  set (l := flat_map (fun i => preorder rok rkids d ([] ++ [i])) (seq 0 (rkids []))) in *.
  assert (FL : Forall (fun v => v <> [] /\ reached v) l).
  { apply Forall_forall. intros v I. apply (tail_visited v (seq 0 (rkids []))); [|intros i J; apply in_seq in J; lia]. rewrite D. replace (S d - 1) with d by lia. exact I. }
  cbn [filter] in A. unfold leafb at 1 in A. destruct (Nat.eqb_spec (rkids []) 0) as [Z|_]; [congruence|]. rewrite andb_false_r in A.
  destruct (rloop (Some [0]) l T1 FL (regular_tree np)) as (t' & E & F); [repeat split|].
  exists (filter (leafb rok rkids) l), (flat_map rout (filter (leafb rok rkids) l)), (S (List.length l)), t'. split; [exact A|]. split; [|split; [auto|]].
  - apply rout_models. apply Forall_forall. intros v I. apply filter_In in I. destruct I as [I L]. split; [|auto]. apply (proj1 (Forall_forall _ _) FL v I).
  - unfold regular_generate. rewrite E, <- flat_rout. reflexivity.
Qed.
End Regular.

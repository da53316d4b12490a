(** Variables that can be wired together. *)
From Coq Require Import List Bool Arith Lia.
From Verif Require Import Base BaseProofs ExecModel ExecSpec ExecStruct MatchModel MatchSpec MatchProofs.
Import ListNotations.

Lemma mapM_same (l : list nat) : mapM (fun v => Ok v) l = Ok l.
Proof. induction l as [|x l IH]; simpl; auto. rewrite IH. reflexivity. Qed.

(** Every typed variable gets, in the order of the variables, exactly those that it can be
    wired to. *)
Theorem C81_match : forall w T (type_ : nat -> option T) typematch, well_formed w ->
  (forall t u, exists b, typematch t u = Ok b) ->
  exists m f, match_variables w T type_ typematch = Ok m /\
    map fst m = filter f (variables w) /\ NoDup (map fst m) /\
    (forall v, In v (map fst m) <-> In v (variables w) /\ type_ v <> None) /\
    forall v l, In (v, l) m -> (exists g, l = filter g (variables w)) /\ NoDup l /\
      forall o, In o l <-> can_wire w type_ typematch v o.
Proof.
  intros w T type_ typematch WF TM.
  destruct (loop_ok w WF T type_ typematch Nat.eqb nat_eqb_iff (fun v => Ok v)) with (vs := variables w) (d := @nil (nat * list nat))
    as (m & E & F); eauto.
  - intros v v' k _ _ [= ->] [= ->]. reflexivity.
  - apply variables_nodup; auto.
  - apply incl_refl.
  - exists m, (typed T type_). split; [exact E|].
    assert (map fst m = filter (typed T type_) (variables w)) as KEYS.
    { clear -F. induction F as [|v r l m [H _] F IH]; simpl; auto. rewrite IH. injection H as ->. reflexivity. }
    split; auto. rewrite KEYS. split; [apply NoDup_filter, variables_nodup; auto|]. split.
    + intro v. rewrite filter_In. unfold typed. split; intros [I J]; split; auto; destruct (type_ v); congruence.
    + intros v l I.
      assert (In v (variables w) /\ l = filter (pick w T type_ typematch v) (variables w)) as [Iv ->].
      { assert (forall x, In x (filter (typed T type_) (variables w)) -> In x (variables w)) as SUB.
        { intros x X. apply filter_In in X. tauto. }
        clear -F I SUB. induction F as [|v' r vs m [H K] F IH]; [contradiction|]. destruct I as [->|I].
        - simpl in *. injection H as ->. rewrite mapM_same in K. injection K as <-. split; auto.
        - apply IH; auto. intros x X. apply SUB. right. exact X. }
      split; [eauto|]. split; [apply NoDup_filter, variables_nodup; auto|].
      intro o. rewrite filter_In. split.
      * intros [Io P]. apply (pick_iff w WF); auto.
      * intro C. pose proof C as (Io & _). split; auto. apply pick_iff; auto.
Qed.

(** With serialize_output, the same with addresses for variables. *)
Theorem C81_serialized : forall w T (type_ : nat -> option T) typematch m, well_formed w ->
  (forall t u, exists b, typematch t u = Ok b) -> match_variables w T type_ typematch = Ok m ->
  exists m', match_variables_serialized w T type_ typematch = Ok m' /\
    Forall2 (fun r r' => variable_indices w (fst r) = Ok (fst r') /\
      Forall2 (fun v a => variable_indices w v = Ok a) (snd r) (snd r')) m m'.
Proof.
  intros w T type_ typematch m WF TM E.
  destruct (loop_ok w WF T type_ typematch Nat.eqb nat_eqb_iff (fun v => Ok v)) with (vs := variables w) (d := @nil (nat * list nat))
    as (m0 & E0 & F0); eauto.
  { intros v v' k _ _ [= ->] [= ->]. reflexivity. }
  { apply variables_nodup; auto. }
  { apply incl_refl. }
  unfold match_variables in E. rewrite E in E0. injection E0 as <-.
  destruct (loop_ok w WF T type_ typematch address_eqb address_eqb_eq (variable_indices w))
    with (vs := variables w) (d := @nil (address * list address)) as (m' & E' & F'); auto.
  { intros v I. destruct (indices_exists w WF v I) as (a & A & _). eauto. }
  { intros v v' k I I' H H'. destruct (indices_exists w WF v I) as (a & A & B).
    destruct (indices_exists w WF v' I') as (a' & A' & B'). congruence. }
  { apply variables_nodup; auto. }
  { apply incl_refl. }
  exists m'. split; [exact E'|]. clear E E'. simpl in F0. revert m F0.
  induction F' as [|v r' vs m' [H K] F' IH]; intros m F0; inversion F0; subst; constructor; auto.
  match goal with X : _ /\ _ |- _ => destruct X as [H0 K0] end. injection H0 as Ev. rewrite mapM_same in K0. injection K0 as Ek.
  split; [rewrite <- Ev; exact H|]. rewrite <- Ek. clear -K. revert K. generalize (snd r').
  induction (filter (pick w T type_ typematch v) (variables w)) as [|x l IH]; intros s; cbn [mapM].
  - intros [= <-]. constructor.
  - destruct (variable_indices w x) as [a|] eqn:A; cbn [bind]; [|discriminate].
    destruct (mapM (variable_indices w) l) as [s'|]; cbn [bind]; [|discriminate]. intros [= <-]. constructor; auto.
Qed.

(** Nothing is raised but what matching two types of the workflow raises. *)
Theorem C81_error : forall w T (type_ : nat -> option T) typematch e, well_formed w ->
  match_variables w T type_ typematch = Err e \/ match_variables_serialized w T type_ typematch = Err e ->
  exists v o t u, In v (variables w) /\ In o (variables w) /\ type_ v = Some t /\ type_ o = Some u /\ typematch t u = Err e.
Proof.
  intros w T type_ typematch e WF [H|H].
  - eapply (loop_err w WF T type_ typematch Nat.eqb (fun v => Ok v)); [eauto|apply incl_refl|exact H].
  - eapply (loop_err w WF T type_ typematch address_eqb (variable_indices w)); [|apply incl_refl|exact H].
    intros v I. destruct (indices_exists w WF v I) as (a & A & _). eauto.
Qed.

(** Being apart goes both ways: whether two variables match in one way and not in the other is
    only a matter of types. *)
Theorem C81_both_ways : forall w T (type_ : nat -> option T) typematch v o t u, In v (variables w) ->
  can_wire w type_ typematch v o -> type_ v = Some t -> type_ o = Some u ->
  (can_wire w type_ typematch o v <-> typematch u t = Ok true).
Proof.
  intros w T type_ typematch v o t u Iv (Io & NE & (P & Q) & _) Tv To. split.
  - intros (_ & _ & _ & t' & u' & H & H' & M). congruence.
  - intro M. split; auto. split; auto. split.
    + split; [intros b s s' X Y; exact (P b s' s Y X)|intros b b' s X Y; exact (Q b' b s Y X)].
    + exists u, t. auto.
Qed.

(** A variable without block that is fed by another one has the address of that one: with
    serialize_output, entries are lost. *)
Theorem C81_chain_refuted : forall w T (type_ : nat -> option T) typematch u v p1 p2 m, u <> v ->
  pipes w = p1 ++ (u, v) :: p2 -> ~ In v (map snd p1) -> ~ In u (map snd (pipes w)) ->
  ~ In u (block_variables w) -> ~ In v (block_variables w) -> NoDup (block_variables w) ->
  type_ u <> None -> type_ v <> None -> match_variables_serialized w T type_ typematch = Ok m ->
  variable_indices w v = variable_indices w u /\ length m < length (filter (typed T type_) (variables w)).
Proof.
  intros w T type_ typematch u v p1 p2 m NE EP N1 N2 BU BV ND TU TV H.
  assert (forall x, In x (pipe_ends (pipes w)) -> ~ In x (block_variables w) -> In x (nonblock_variables w) /\ In x (variables w)) as NBV.
  { intros x X Y. unfold nonblock_variables, variables, handle_pipes.
    destruct (fold_left handle_pipe (pipes w) (block_variables w, [])) as [vs nb] eqn:E. simpl.
    apply (handle_pipes_inv _ (block_variables w)) in E; [|rewrite app_nil_r; auto|auto].
    destruct E as (-> & _ & E). assert (In x nb) by (apply E; auto). split; auto. apply in_or_app. auto. }
  assert (In (u, v) (pipes w)) as IP by (rewrite EP; apply in_or_app; right; left; reflexivity).
  destruct (NBV u) as [NU VU]; auto. { apply in_flat_map. exists (u, v). simpl. auto. }
  destruct (NBV v) as [NV VV]; auto. { apply in_flat_map. exists (u, v). simpl. auto. }
  assert (upstream_variable w v = Some u) as UV.
  { unfold upstream_variable, variable_input_pipe. rewrite EP. unfold enumerate.
    assert (forall p1 k, ~ In v (map snd p1) -> option_map (fun ip : nat * (nat * nat) => fst (snd ip))
      (find (fun ip => snd (snd ip) =? v) (combine (seq k (length (p1 ++ (u, v) :: p2))) (p1 ++ (u, v) :: p2))) = Some u) as X.
    { clear. induction p1 as [|[a b] p1 IH]; intros k N; simpl.
      - rewrite Nat.eqb_refl. reflexivity.
      - destruct (Nat.eqb_spec b v); [subst; exfalso; apply N; left; reflexivity|]. apply IH. intro J. apply N. right. exact J. }
    apply X. exact N1. }
  assert (upstream_variable w u = None) as UU.
  { unfold upstream_variable, variable_input_pipe. destruct (find _ (enumerate (pipes w))) as [[i [a b]]|] eqn:F; auto.
    apply find_some in F. destruct F as [F G]. apply Nat.eqb_eq in G. simpl in G. subst b. exfalso. apply N2.
    unfold enumerate in F. apply in_combine_r in F. apply in_map_iff. exists (a, u). auto. }
  assert (forall x, ~ In x (block_variables w) -> find_port 0 (blocks w) x = None) as FP.
  { intros x X. apply find_port_none. intros b Ib J. apply X. unfold block_variables. apply in_flat_map. eauto. }
  assert (variable_indices w v = variable_indices w u) as EQ.
  { unfold variable_indices. rewrite !FP by auto. unfold get_upstream_nbv. rewrite UV, UU.
    destruct (nonblock_variables w) as [|n l] eqn:L; [contradiction|].
    assert (mem u (n :: l) = true) as -> by (apply mem_In; exact NU). reflexivity. }
  split; auto. destruct (loop_keys w T type_ typematch (variables w) [] m) as [K1 K2]; [constructor|exact H|].
  set (ids := filter (typed T type_) (variables w)) in *.
  assert (forall x, In x (variables w) -> type_ x <> None -> In x ids) as IN.
  { intros x X Y. apply filter_In. split; auto. unfold typed. destruct (type_ x); congruence. }
  assert (length (map (fun k => Ok k) (map fst m)) <= length (map (variable_indices w) (remove Nat.eq_dec u ids))) as LE.
  { apply NoDup_incl_length.
    - apply FinFun.Injective_map_NoDup; auto. intros a b [= ->]. reflexivity.
    - intros r R. apply in_map_iff in R. destruct R as (k & <- & I). destruct (K2 k I) as [[]|(x & X & Y)].
      apply in_map_iff. destruct (Nat.eq_dec x u) as [->|D].
      + exists v. split; [congruence|]. apply in_in_remove; auto.
      + exists x. split; auto. apply in_in_remove; auto. }
  rewrite !map_length in LE. pose proof (remove_length_lt Nat.eq_dec ids u (IN u VU TU)). lia.
Qed.

(** Two blocks and a free variable for the first: 0 gives 1; 2 and 3 give 4; 1 goes to 2, 5 to 0.
    Types are numbers, a type matches those that are as big. *)
Definition shop : workflow := mkWf [mkBlock [0] [1]; mkBlock [2; 3] [4]] [(1, 2); (5, 0)] (Some 4).
Definition shop_type (v : nat) : option nat := nth v [Some 1; Some 2; Some 2; None; Some 1; Some 1] None.
Example shop_match : match_variables shop nat shop_type (fun t u => Ok (Nat.leb t u))
  = Ok [(0, [4; 5]); (1, [2]); (2, [1]); (4, [0; 5]); (5, [0; 1; 2; 4])].
Proof. reflexivity. Qed.
Example shop_serialized : match_variables_serialized shop nat shop_type (fun t u => Ok (Nat.leb t u))
  = Ok [(APort 0 false 0, [APort 1 true 0; ANbv 0]); (APort 0 true 0, [APort 1 false 0]); (APort 1 false 0, [APort 0 true 0]);
        (APort 1 true 0, [APort 0 false 0; ANbv 0]); (ANbv 0, [APort 0 false 0; APort 0 true 0; APort 1 false 0; APort 1 true 0])].
Proof. reflexivity. Qed.
(** a chain of two free variables *)
Example shop_chain : match_variables_serialized (mkWf [mkBlock [0] [1]] [(2, 3); (3, 0)] None) nat (fun _ => Some 1) (fun t u => Ok (Nat.leb t u))
  = Ok [(APort 0 false 0, [ANbv 0; ANbv 0]); (APort 0 true 0, [ANbv 0; ANbv 0]); (ANbv 0, [APort 0 false 0; APort 0 true 0; ANbv 0])].
Proof. reflexivity. Qed.

Print Assumptions C81_match.
Print Assumptions C81_serialized.
Print Assumptions C81_error.
Print Assumptions C81_both_ways.
Print Assumptions C81_chain_refuted.

(** Lemmas on variables that can be wired together. *)
From Coq Require Import List Bool Arith Lia.
From Verif Require Import Base BaseProofs ExecModel ExecSpec ExecStruct MatchModel MatchSpec.
Import ListNotations.

Section Match.
Variable w : workflow.
Hypothesis WF : well_formed w.
Variable T : Type.
Variable type_ : nat -> option T.
Variable typematch : T -> T -> res bool.

Lemma port_on v : In v (variables w) -> ~ In v (nonblock_variables w) ->
  exists n s k, variable_indices w v = Ok (APort n s k) /\ on_block w n s v /\ forall n' s', on_block w n' s' v -> n' = n /\ s' = s.
Proof.
  intros I N. apply in_variables in I; auto. destruct I as [I|I]; [|contradiction].
  apply in_block_variables in I. destruct I as (b & Ib & J). apply In_nth_error in Ib. destruct Ib as [n Nb].
  assert (exists s : bool, In v (if s then b_out b else b_in b)) as [s Js] by (destruct J; [exists false|exists true]; auto).
  apply In_nth_error in Js as Jk. destruct Jk as [k K]. exists n, s, k.
  split; [eapply indices_port; eauto|]. split; [exists b; auto|].
  intros n' s' (b' & Nb' & J'). apply In_nth_error in J'. destruct J' as [k' K'].
  pose proof (indices_port w WF n b s k v Nb K) as A. pose proof (indices_port w WF n' b' s' k' v Nb' K') as A'.
  rewrite A in A'. injection A' as -> -> _. auto.
Qed.

Lemma nbv_off v : In v (nonblock_variables w) -> forall n s, ~ on_block w n s v.
Proof.
  intros I n s (b & N & J). apply nbv_In in I; auto. destruct I as [_ I]. apply I. apply in_block_variables.
  exists b. split; [eapply nth_error_In; eauto|]. destruct s; auto.
Qed.

Lemma compat_iff v o : In v (variables w) -> In o (variables w) ->
  exists c, variable_compatibility w T type_ v o = Ok c /\ (c = true <-> v <> o /\ apart w v o /\ type_ v <> None /\ type_ o <> None).
Proof.
  intros Iv Io. unfold variable_compatibility. destruct (Nat.eqb_spec v o) as [->|NE].
  { exists false. split; auto. split; [discriminate|]. intros [H _]. congruence. }
  destruct (indices_exists w WF v Iv) as (a & A & _). destruct (indices_exists w WF o Io) as (b & B & _).
  rewrite A, B. cbn [bind].
  assert (exists r, (if negb (mem v (nonblock_variables w)) && negb (mem o (nonblock_variables w)) then
        match a, b with
        | APort n s _, APort m t _ => Ok (Nat.eqb n m || Bool.eqb s t)
        | _, _ => Err TypeError
        end else Ok false) = Ok r /\ (r = false <-> apart w v o)) as (r & -> & R).
  { destruct (mem v (nonblock_variables w)) eqn:Mv.
    { apply mem_In in Mv. exists false. split; auto. split; auto. intros _. split.
      - intros n s s' H. destruct (nbv_off v Mv n s H).
      - intros n m s H. destruct (nbv_off v Mv n s H). }
    destruct (mem o (nonblock_variables w)) eqn:Mo.
    { apply mem_In in Mo. exists false. split; auto. split; auto. intros _. split.
      - intros n s s' _ H. destruct (nbv_off o Mo n s' H).
      - intros n m s _ H. destruct (nbv_off o Mo m s H). }
    apply mem_false in Mv, Mo. cbn [negb andb].
    destruct (port_on v Iv Mv) as (n & s & k & Av & Ov & Uv). destruct (port_on o Io Mo) as (m & t & j & Ao & Oo & Uo).
    rewrite A in Av. injection Av as ->. rewrite B in Ao. injection Ao as ->.
    eexists. split; [reflexivity|]. rewrite orb_false_iff, Nat.eqb_neq, eqb_false_iff. split.
    - intros [Nb Ns]. split.
      + intros x s1 s2 H1 H2. destruct (Uv _ _ H1). destruct (Uo _ _ H2). congruence.
      + intros x y s1 H1 H2. destruct (Uv _ _ H1). destruct (Uo _ _ H2). congruence.
    - intros [P Q]. split; intros ->; [exact (P _ _ _ Ov Oo)|exact (Q _ _ _ Ov Oo)]. }
  cbn [bind]. destruct r.
  - exists false. split; auto. split; [discriminate|]. intros (_ & H & _). apply R in H. discriminate.
  - pose proof (proj1 R eq_refl) as AP. destruct (type_ v), (type_ o); eexists; (split; [reflexivity|]); split; try discriminate; auto;
      try (intros (_ & _ & X & Y); congruence). intros _. repeat split; auto; try discriminate; apply AP.
Qed.

(** What the inner loop keeps. *)
Definition pick (v o : nat) : bool :=
  match type_ v, type_ o, variable_compatibility w T type_ v o with
  | Some t, Some u, Ok true => match typematch t u with Ok b => b | Err _ => false end
  | _, _, _ => false
  end.

Lemma pick_iff v o : In v (variables w) -> In o (variables w) -> (pick v o = true <-> can_wire w type_ typematch v o).
Proof.
  intros Iv Io. unfold pick, can_wire. destruct (compat_iff v o Iv Io) as (c & C & H). rewrite C. split.
  - destruct (type_ v) as [t|] eqn:Tv; [|discriminate]. destruct (type_ o) as [u|] eqn:To; [|discriminate].
    destruct c; [|discriminate]. destruct (typematch t u) as [b|] eqn:M; [|discriminate]. intros ->.
    destruct (proj1 H eq_refl) as (NE & AP & _). split; auto. split; auto. split; auto. exists t, u. auto.
  - intros (_ & NE & AP & t & u & Tv & To & M). rewrite Tv, To in *.
    assert (c = true) as -> by (apply H; repeat split; try discriminate; auto; apply AP). rewrite M. reflexivity.
Qed.

Section Keys.
Context {K : Type}.
Variable eqb : K -> K -> bool.
Hypothesis eqb_ok : forall a b, eqb a b = true <-> a = b.
Variable key : nat -> res K.
Hypothesis key_ok : forall v, In v (variables w) -> exists k, key v = Ok k.

Lemma matching_ok v t os : (forall t u, exists b, typematch t u = Ok b) ->
  In v (variables w) -> type_ v = Some t -> incl os (variables w) ->
  matching w T type_ typematch key v t os = mapM key (filter (pick v) os).
Proof.
  intros TM Iv Tv. induction os as [|o os IH]; intro Inc; [reflexivity|]. cbn [matching filter].
  assert (In o (variables w)) as Io by (apply Inc; left; reflexivity).
  assert (incl os (variables w)) as Inc' by (intros x X; apply Inc; right; exact X).
  destruct (compat_iff v o Iv Io) as (c & C & H). rewrite IH by auto.
  unfold pick at 2. rewrite C, Tv. cbn [bind].
  assert (forall r : res (list K), (let* here := Ok [] in let* rest := r in Ok (here ++ rest)) = r) as NIL by (intros [x|]; reflexivity).
  destruct c.
  - destruct (proj1 H eq_refl) as (_ & _ & _ & To). destruct (type_ o) as [u|]; [|congruence].
    destruct (TM t u) as [b ->]. cbn [bind]. destruct b.
    + cbn [mapM]. destruct (key_ok o Io) as [k ->]. cbn [bind]. reflexivity.
    + apply NIL.
  - destruct (type_ o); apply NIL.
Qed.

Lemma matching_err v t os e : In v (variables w) -> type_ v = Some t -> incl os (variables w) ->
  matching w T type_ typematch key v t os = Err e ->
  exists o u, In o os /\ type_ o = Some u /\ typematch t u = Err e.
Proof.
  intros Iv Tv. induction os as [|o os IH]; intros Inc; [discriminate|]. cbn [matching].
  assert (In o (variables w)) as Io by (apply Inc; left; reflexivity).
  assert (incl os (variables w)) as Inc' by (intros x X; apply Inc; right; exact X).
  destruct (compat_iff v o Iv Io) as (c & C & H). rewrite C. cbn [bind].
  assert (forall (l : list K), (let* rest := matching w T type_ typematch key v t os in Ok (l ++ rest)) = Err e ->
    exists o0 u, In o0 (o :: os) /\ type_ o0 = Some u /\ typematch t u = Err e) as REST.
  { intros l. destruct (matching w T type_ typematch key v t os) as [m|e']; cbn [bind]; [discriminate|].
    intros [= ->]. destruct (IH Inc' eq_refl) as (o' & u & I & X). exists o', u. split; [right|]; auto. }
  destruct c; [|apply (REST [])]. destruct (type_ o) as [u|] eqn:To; [|apply (REST [])].
  destruct (typematch t u) as [b|e'] eqn:M; cbn [bind].
  - destruct b; [|apply (REST [])]. destruct (key_ok o Io) as [k ->]. cbn [bind]. apply REST.
  - intros [= ->]. exists o, u. split; [left|]; auto.
Qed.

Lemma put_new {A} (k : K) (x : A) d : ~ In k (map fst d) -> put_at eqb k x d = d ++ [(k, x)].
Proof.
  induction d as [|[k' y] d IH]; simpl; auto. intro N. destruct (eqb k k') eqn:E.
  - apply eqb_ok in E. subst. exfalso. apply N. left. reflexivity.
  - rewrite IH; auto.
Qed.

Lemma loop_ok : (forall t u, exists b, typematch t u = Ok b) ->
  (forall v v' k, In v (variables w) -> In v' (variables w) -> key v = Ok k -> key v' = Ok k -> v = v') ->
  forall vs d, NoDup vs -> incl vs (variables w) -> (forall v k, In v vs -> key v = Ok k -> ~ In k (map fst d)) ->
  exists new, match_loop w T type_ typematch eqb key vs d = Ok (d ++ new) /\
    Forall2 (fun v r => key v = Ok (fst r) /\ mapM key (filter (pick v) (variables w)) = Ok (snd r)) (filter (typed T type_) vs) new.
Proof.
  intros TM INJ vs. induction vs as [|v vs IH]; intros d ND Inc Fresh.
  - exists []. rewrite app_nil_r. split; [reflexivity|constructor].
  - cbn [match_loop filter]. inversion ND; subst.
    assert (In v (variables w)) as Iv by (apply Inc; left; reflexivity).
    assert (incl vs (variables w)) as Inc' by (intros x X; apply Inc; right; exact X).
    unfold typed at 1. destruct (type_ v) as [t|] eqn:Tv.
    + destruct (key_ok v Iv) as [k Kv]. rewrite Kv. cbn [bind].
      rewrite (matching_ok v t) by (auto; apply incl_refl).
      assert (exists l, mapM key (filter (pick v) (variables w)) = Ok l) as [l L].
      { assert (forall l, incl l (variables w) -> exists m, mapM key l = Ok m) as X.
        { induction l as [|y l IHl]; intro I; cbn [mapM]; eauto. destruct (key_ok y (I y (or_introl eq_refl))) as [ky ->].
          destruct IHl as [m ->]; [intros z Z; apply I; right; exact Z|]. cbn [bind]. eauto. }
        apply X. intros y Y. apply filter_In in Y. tauto. }
      rewrite L. cbn [bind]. rewrite put_new by (apply (Fresh v); auto; left; reflexivity).
      destruct (IH (d ++ [(k, l)])) as (new & E & F); auto.
      { intros v' k' I' K' J. rewrite map_app in J. apply in_app_or in J. destruct J as [J|[J|[]]].
        - apply (Fresh v' k'); auto. right. exact I'.
        - simpl in J. subst k'. assert (v = v') by (eapply INJ; eauto). subst. contradiction. }
      exists ((k, l) :: new). rewrite E, <- app_assoc. split; [reflexivity|]. constructor; auto.
    + apply IH; auto. intros v' k' I'. apply Fresh. right. exact I'.
Qed.

Lemma loop_err vs : forall d e, incl vs (variables w) -> match_loop w T type_ typematch eqb key vs d = Err e ->
  exists v o t u, In v vs /\ In o (variables w) /\ type_ v = Some t /\ type_ o = Some u /\ typematch t u = Err e.
Proof.
  induction vs as [|v vs IH]; intros d e Inc; [discriminate|]. cbn [match_loop].
  assert (In v (variables w)) as Iv by (apply Inc; left; reflexivity).
  assert (incl vs (variables w)) as Inc' by (intros x X; apply Inc; right; exact X).
  destruct (type_ v) as [t|] eqn:Tv.
  - destruct (key_ok v Iv) as [k ->]. cbn [bind].
    destruct (matching w T type_ typematch key v t (variables w)) as [l|e'] eqn:M; cbn [bind].
    + intro H. destruct (IH _ _ Inc' H) as (v' & o & t' & u & I & X). exists v', o, t', u. split; [right|]; auto.
    + intros [= ->]. destruct (matching_err v t (variables w) e Iv Tv (incl_refl _) M) as (o & u & I & To & X).
      exists v, o, t, u. repeat split; auto. left. reflexivity.
  - intro H. destruct (IH _ _ Inc' H) as (v' & o & t' & u & I & X). exists v', o, t', u. split; [right|]; auto.
Qed.
End Keys.
End Match.

Section Counts.
Variable w : workflow.
Variable T : Type.
Variable type_ : nat -> option T.
Variable typematch : T -> T -> res bool.

Lemma put_keys {A} (k : address) (x : A) d : NoDup (map fst d) ->
  NoDup (map fst (put_at address_eqb k x d)) /\ incl (map fst (put_at address_eqb k x d)) (k :: map fst d).
Proof.
  induction d as [|[k' y] d IH]; simpl; intro ND.
  - split; [repeat constructor; intros []|apply incl_refl].
  - destruct (address_eqb k k') eqn:E; simpl.
    + split; auto. intros z Z. right. exact Z.
    + inversion ND; subst. destruct IH as [I1 I2]; auto. split.
      * constructor; auto. intro J. apply I2 in J. destruct J as [->|J]; [|contradiction].
        assert (address_eqb k' k' = true) by (apply address_eqb_eq; auto). congruence.
      * intros z [<-|Z]; [right; left; auto|]. apply I2 in Z. destruct Z as [<-|Z]; [left|right; right]; auto.
Qed.

Lemma loop_keys vs : forall d m, NoDup (map fst d) -> match_loop w T type_ typematch address_eqb (variable_indices w) vs d = Ok m ->
  NoDup (map fst m) /\ forall k, In k (map fst m) -> In k (map fst d) \/ exists v, In v (filter (typed T type_) vs) /\ variable_indices w v = Ok k.
Proof.
  induction vs as [|v vs IH]; intros d m ND; cbn [match_loop filter].
  - intros [= <-]. auto.
  - unfold typed at 1. destruct (type_ v) as [t|] eqn:Tv.
    + destruct (variable_indices w v) as [k|] eqn:K; cbn [bind]; [|discriminate].
      destruct (matching w T type_ typematch (variable_indices w) v t (variables w)) as [l|]; cbn [bind]; [|discriminate].
      intro H. destruct (put_keys k l d ND) as [P1 P2]. destruct (IH _ _ P1 H) as [R1 R2]. split; auto.
      intros k' I. destruct (R2 k' I) as [J|(x & X & Y)].
      * apply P2 in J. destruct J as [<-|J]; auto. right. exists v. split; [left|]; auto.
      * right. exists x. split; [right|]; auto.
    + apply IH; auto.
Qed.
End Counts.

(** Proofs about the displays offered at steps. *)
From Coq Require Import List Bool Arith Lia.
From Verif Require Import Base OfferedModel OfferedSpec.
Import ListNotations.
Local Open Scope list_scope.

Lemma index_of_position l v k : index_of Nat.eqb v l = Some k <-> position l v k.
Proof.
  revert k. induction l as [|x l IH]; intros k; cbn [index_of].
  - split; [discriminate|]. intros [E _]. destruct k; discriminate.
  - destruct (Nat.eqb_spec v x) as [->|N].
    + split.
      * intros E. injection E as <-. split; [reflexivity|]. intros j J. lia.
      * intros [E F]. destruct k as [|k]; [reflexivity|]. exfalso. apply (F 0); [lia|reflexivity].
    + destruct (index_of Nat.eqb v l) as [k'|] eqn:I; cbn [option_map].
      * assert (P := proj1 (IH k') eq_refl). destruct P as [P1 P2]. split.
        -- intros E. injection E as <-. split; [exact P1|]. intros [|j] J; cbn; [congruence|apply P2; lia].
        -- intros [E F]. destruct k as [|k]; [cbn in E; congruence|]. cbn in E. f_equal. f_equal. destruct (Nat.lt_trichotomy k k') as [H|[H|H]]; [|auto|].
           ++ exfalso. apply (P2 k H E).
           ++ exfalso. apply (F (S k')); [lia|exact P1].
      * split; [discriminate|]. intros [E F]. destruct k as [|k]; [cbn in E; congruence|]. cbn in E. assert (X : @None nat = Some k) by (apply IH; split; [exact E|intros j J; apply (F (S j)); lia]). discriminate.
Qed.
Lemma index_ok l v : In v l -> exists k, index l v = Ok k /\ position l v k.
Proof.
  intros I. unfold index. destruct (index_of Nat.eqb v l) as [k|] eqn:E.
  - exists k. split; [reflexivity|]. apply index_of_position. exact E.
  - exfalso. induction l as [|x l IH]; [destruct I|]. cbn [index_of] in E. destruct (Nat.eqb_spec v x) as [->|N]; [discriminate|]. destruct I as [->|I]; [congruence|]. destruct (index_of Nat.eqb v l); [discriminate|]. auto.
Qed.
Lemma index_in l v k : index l v = Ok k -> position l v k.
Proof. unfold index. destruct (index_of Nat.eqb v l) as [j|] eqn:E; cbn; [|discriminate]. intros F. injection F as <-. apply index_of_position. exact E. Qed.
Lemma index_err l v e : index l v = Err e -> e = ValueError /\ ~ In v l.
Proof. intros E. split; [unfold index in E; destruct (index_of _ _ _); cbn in E; congruence|]. intros I. destruct (index_ok l v I) as (k & F & _). congruence. Qed.
Lemma position_in l v k : position l v k -> In v l.
Proof. intros [E _]. eapply nth_error_In; eauto. Qed.
Lemma position_fun l v k k' : position l v k -> position l v k' -> k = k'.
Proof. rewrite <- !index_of_position. congruence. Qed.
Lemma position_inj l v v' k : position l v k -> position l v' k -> v = v'.
Proof. intros [E _] [F _]. congruence. Qed.
Lemma indexes_ok l vs : (forall v, In v vs -> In v l) -> exists ks, mapM (index l) vs = Ok ks.
Proof.
  induction vs as [|v vs IH]; intros H; [eexists; reflexivity|]. destruct (index_ok l v (H v (or_introl eq_refl))) as (k & E & _). destruct IH as [ks Eks]; [intros; apply H; right; auto|]. exists (k :: ks). cbn [mapM]. rewrite E. cbn [bind]. rewrite Eks. reflexivity.
Qed.
Lemma indexes_in l vs : forall ks, mapM (index l) vs = Ok ks -> (forall v, In v vs -> In v l) /\ forall k, In k ks <-> exists v, In v vs /\ position l v k.
Proof.
  induction vs as [|v vs IH]; intros ks E; cbn [mapM] in E.
  - injection E as <-. split; [intros v []|]. intros k. split; [intros []|intros (v & [] & _)].
  - destruct (index l v) as [k|e] eqn:K; cbn [bind] in E; [|discriminate]. destruct (mapM (index l) vs) as [ks'|e]; cbn [bind] in E; [|discriminate]. injection E as <-. apply index_in in K. destruct (IH ks' eq_refl) as [A B]. split.
    + intros u [->|I]; [eapply position_in; eauto|auto].
    + intros j. split.
      * intros [<-|J]; [exists v; split; [left; auto|auto]|]. apply B in J. destruct J as (u & U & P). exists u. split; [right; auto|auto].
      * intros (u & [->|U] & P); [left; eapply position_fun; eauto|]. right. apply B. eauto.
Qed.
Lemma indexes_err l vs e : mapM (index l) vs = Err e -> e = ValueError /\ exists v, In v vs /\ ~ In v l.
Proof.
  induction vs as [|v vs IH]; cbn [mapM]; [discriminate|]. destruct (index l v) as [k|e'] eqn:K; cbn [bind].
  - destruct (mapM (index l) vs) as [ks|e']; cbn [bind]; [discriminate|]. intros E. injection E as ->. destruct (IH eq_refl) as [A (u & U & N)]. split; [auto|]. exists u. split; [right; auto|auto].
  - intros E. injection E as ->. apply index_err in K. destruct K as [A N]. split; [auto|]. exists v. split; [left; auto|auto].
Qed.

Section P.
Context {D L : Type}.
Notation shown := (shown D L).
Variables variables inputs : list nat.

Lemma set_item_new {X} (d : list (nat * X)) k x : ~ In k (map fst d) -> set_item d k x = d ++ [(k, x)].
Proof. induction d as [|[k' y] d IH]; cbn [set_item map fst In app]; intros N; [reflexivity|]. destruct (Nat.eqb_spec k' k) as [->|M]; [tauto|]. rewrite IH by tauto. reflexivity. Qed.
Lemma set_item_same {X} (d : list (nat * X)) k x : NoDup (map fst d) -> In (k, x) d -> set_item d k x = d.
Proof.
  induction d as [|[k' y] d IH]; intros ND I; [destruct I|]. cbn [map fst] in ND. inversion ND as [|? ? N ND']; subst. cbn [set_item]. destruct (Nat.eqb_spec k' k) as [->|M].
  - destruct I as [E|I]; [injection E as <-; reflexivity|]. exfalso. apply N. apply (in_map fst) in I. exact I.
  - destruct I as [E|I]; [injection E; congruence|]. rewrite IH by auto. reflexivity.
Qed.

(** The items of an output. *)
Definition item {X} (f : shown -> X) (o : shown) (p : nat * X) : Prop := position variables (variable o) (fst p) /\ snd p = f o.
Lemma item_in {X} (f : shown -> X) os ps : Forall2 (item f) os ps -> forall o, In o os -> exists k, position variables (variable o) k /\ In (k, f o) ps.
Proof.
  induction 1 as [|o p os ps [H1 H2] F IH]; intros o' I; [destruct I|]. destruct I as [<-|I].
  - exists (fst p). split; [auto|]. left. rewrite <- H2. destruct p; reflexivity.
  - destruct (IH o' I) as (k & K & J). exists k. split; [auto|right; auto].
Qed.
Lemma item_keys {X} (f : shown -> X) os ps k : Forall2 (item f) os ps -> In k (map fst ps) -> exists o, In o os /\ position variables (variable o) k.
Proof.
  induction 1 as [|o p os ps [H1 H2] F IH]; intros I; [destruct I|]. destruct I as [<-|I]; [exists o; split; [left; auto|auto]|]. destruct (IH I) as (o' & ? & ?). exists o'. split; [right; auto|auto].
Qed.
Lemma item_nodup {X} (f : shown -> X) os ps : Forall2 (item f) os ps -> NoDup (map variable os) -> NoDup (map fst ps).
Proof.
  induction 1 as [|o p os ps [H1 H2] F IH]; cbn [map]; intros ND; [constructor|]. inversion ND as [|? ? N ND']; subst. constructor; [|auto]. intros I. destruct (item_keys f os ps _ F I) as (o' & O & P). apply N. rewrite (position_inj _ _ _ _ H1 P). apply (in_map variable). exact O.
Qed.

Definition free (missing : list nat) (p : shown * list nat) : bool := forallb (fun i => negb (memb Nat.eqb i missing)) (snd p).
(** Labels: either nothing was offered before, or everything was. *)
Lemma offer_spec missing ds : forall done step labels, (forall o i, In (o, i) ds -> In (variable o) variables) ->
  NoDup (map variable (done ++ map fst (filter (free missing) ds))) -> Forall2 (item settings) done step ->
  exists step', offer variables missing ds step labels = Ok (step', fold_left (fun lb p => match index variables (variable (fst p)) with Ok k => set_item lb k (label (fst p)) | Err _ => lb end) (filter (free missing) ds) labels) /\
    Forall2 (item settings) (done ++ map fst (filter (free missing) ds)) step'.
Proof.
  induction ds as [|[o ixs] ds IH]; intros done step labels V ND F; cbn [offer filter map fold_left].
  - exists step. rewrite app_nil_r. auto.
  - change (forallb (fun i => negb (memb Nat.eqb i missing)) ixs) with (free missing (o, ixs)). cbn [filter] in ND. destruct (free missing (o, ixs)) eqn:E; cbn [fold_left map fst].
    + destruct (index_ok variables (variable o) (V o ixs (or_introl eq_refl))) as (k & K & P). rewrite K. cbn [bind]. cbn [map fst] in ND.
      replace (done ++ o :: map fst (filter (free missing) ds)) with ((done ++ [o]) ++ map fst (filter (free missing) ds)) in * by (rewrite <- app_assoc; reflexivity). apply IH; [intros; eapply V; right; eauto|exact ND|].
      rewrite set_item_new; [apply Forall2_app; [exact F|constructor; [split; auto|constructor]]|]. intros I. destruct (item_keys settings done step k F I) as (o' & O & P'). assert (X := position_inj _ _ _ _ P P').
      rewrite map_app in ND. assert (ND2 : NoDup (map variable (done ++ [o]))). { clear -ND. revert ND. generalize (map variable (done ++ [o])), (map variable (map fst (filter (free missing) ds))). intros a b. induction a as [|x a IHa]; cbn; intros H; [constructor|]. inversion H; subst. constructor; [rewrite in_app_iff in *; tauto|auto]. }
      rewrite map_app in ND2. cbn [map] in ND2. apply NoDup_remove_2 in ND2. rewrite app_nil_r in ND2. apply ND2. rewrite X. apply (in_map variable). exact O.
    + apply IH; auto. intros; eapply V; right; eauto.
Qed.

Lemma labels_full (ds : list (shown * list nat)) lb : NoDup (map variable (map fst ds)) -> Forall2 (item label) (map fst ds) lb -> forall sub, (forall p, In p sub -> In p ds) ->
  fold_left (fun lb p => match index variables (variable (fst p)) with Ok k => set_item lb k (label (fst p)) | Err _ => lb end) sub lb = lb.
Proof.
  intros ND F. induction sub as [|p sub IH]; intros S; cbn [fold_left]; [reflexivity|].
  assert (I := S p (or_introl eq_refl)). apply (in_map fst) in I. destruct (item_in label _ _ F (fst p) I) as (k & P & J). assert (K : index variables (variable (fst p)) = Ok k) by (unfold index; rewrite (proj2 (index_of_position _ _ _) P); reflexivity).
  rewrite K. rewrite set_item_same; [apply IH; intros; apply S; right; auto|eapply item_nodup; eauto|exact J].
Qed.
Lemma labels_first (os : list (shown * list nat)) : forall done lb, (forall p, In p os -> In (variable (fst p)) variables) -> NoDup (map variable (done ++ map fst os)) -> Forall2 (item label) done lb ->
  Forall2 (item label) (done ++ map fst os) (fold_left (fun lb p => match index variables (variable (fst p)) with Ok k => set_item lb k (label (fst p)) | Err _ => lb end) os lb).
Proof.
  induction os as [|[o ixs] os IH]; intros done lb V ND F; cbn [fold_left map fst]; [rewrite app_nil_r; exact F|]. destruct (index_ok variables (variable o) (V (o, ixs) (or_introl eq_refl))) as (k & K & P). rewrite K.
  cbn [map fst] in ND. replace (done ++ o :: map fst os) with ((done ++ [o]) ++ map fst os) in * by (rewrite <- app_assoc; reflexivity). apply IH; [intros; apply V; right; auto|exact ND|].
  rewrite set_item_new; [apply Forall2_app; [exact F|constructor; [split; auto|constructor]]|]. intros I. destruct (item_keys label done lb k F I) as (o' & O & P'). assert (X := position_inj _ _ _ _ P P').
  rewrite map_app, map_app in ND. rewrite <- app_assoc in ND. cbn [map app] in ND. apply NoDup_remove_2 in ND. apply ND. apply in_or_app. left. rewrite X. apply (in_map variable). exact O.
Qed.

(** All steps, from the last one; [gone] are the inputs of the steps already seen. *)
Lemma kept_filter (ds : list (shown * list nat)) missing (P : shown -> Prop) : (forall o i, In (o, i) ds -> (free missing (o, i) = true <-> P o)) -> kept P (map fst ds) (map fst (filter (free missing) ds)).
Proof.
  induction ds as [|[o i] ds IH]; intros H; cbn [map filter fst]; [constructor|]. assert (H0 := H o i (or_introl eq_refl)). destruct (free missing (o, i)) eqn:E; cbn [map fst]; constructor; try (apply IH; intros; apply H; right; auto).
  - apply H0. reflexivity.
  - intros X. apply H0 in X. discriminate.
Qed.
Lemma nodup_filter (ds : list (shown * list nat)) f : NoDup (map variable (map fst ds)) -> NoDup (map variable (map fst (filter f ds))).
Proof.
  induction ds as [|p ds IH]; cbn [map filter]; intros ND; [constructor|]. inversion ND as [|? ? N ND']; subst. destruct (f p); cbn [map]; [|auto]. constructor; [|auto]. intros I. apply N. rewrite map_map in *. apply in_map_iff in I. destruct I as (q & E & I). apply filter_In in I. rewrite <- E. apply (in_map (fun q => variable (fst q))). apply I.
Qed.
Lemma free_iff ds gone missing : (forall o i, In (o, i) ds -> In (variable o) variables /\ mapM (index inputs) (upstream o) = Ok i) -> (forall k, In k missing <-> exists v, In v gone /\ position inputs v k) ->
  forall o i, In (o, i) ds -> (free missing (o, i) = true <-> forall v, In v (upstream o) -> ~ In v gone).
Proof.
  intros H M o i I. destruct (H o i I) as [_ E]. destruct (indexes_in _ _ _ E) as [A B]. unfold free. cbn [snd]. rewrite forallb_forall. split.
  - intros X v V G. destruct (index_ok inputs v (A v V)) as (k & _ & P). assert (K : In k i) by (apply B; eauto). specialize (X k K). apply negb_true_iff in X. assert (T : memb Nat.eqb k missing = true); [|congruence].
    unfold memb. apply existsb_exists. exists k. split; [apply M; eauto|apply Nat.eqb_refl].
  - intros X k K. apply negb_true_iff. destruct (memb Nat.eqb k missing) eqn:T; [|reflexivity]. exfalso. unfold memb in T. apply existsb_exists in T. destruct T as (k' & K' & Eq). apply Nat.eqb_eq in Eq. subst k'.
    apply M in K'. destruct K' as (v & G & P). apply B in K. destruct K as (u & U & P'). rewrite (position_inj _ _ _ _ P P') in G. apply (X u U G).
Qed.
Definition offered_at (ds : list (shown * list nat)) (gone : list nat) (step : list (nat * list D)) : Prop :=
  exists os, kept (fun o => forall v, In v (upstream o) -> ~ In v gone) (map fst ds) os /\ Forall2 (item settings) os step.
Lemma offers_spec (ds : list (shown * list nat)) : NoDup (map variable (map fst ds)) -> (forall o i, In (o, i) ds -> In (variable o) variables /\ mapM (index inputs) (upstream o) = Ok i) ->
  forall steps gone missing available labels, (forall k, In k missing <-> exists v, In v gone /\ position inputs v k) ->
  (missing = [] /\ labels = [] \/ Forall2 (item label) (map fst ds) labels) -> (forall s v, In s steps -> In v s -> In v inputs) ->
  exists offered lb, offers variables inputs ds steps missing available labels = Ok (available ++ offered, lb) /\ List.length offered = List.length steps /\
    (forall j step, nth_error offered j = Some step -> offered_at ds (gone ++ concat (firstn j steps)) step) /\
    (steps = [] /\ lb = labels \/ Forall2 (item label) (map fst ds) lb).
Proof.
  intros ND H. induction steps as [|step steps IH]; intros gone missing available labels M LB S.
  - exists [], labels. cbn [offers]. rewrite app_nil_r. split; [reflexivity|]. split; [reflexivity|]. split; [intros [|j]; discriminate|]. left. auto.
  - cbn [offers]. destruct (offer_spec missing ds [] [] labels) as (st & E & F); [intros o i I; apply (H o i I)|apply nodup_filter; exact ND|constructor|]. cbn [app] in F.
    rewrite E. cbn [bind fst snd]. destruct (indexes_ok inputs step) as [more Em]; [intros v V; apply (S step v); [left; auto|auto]|]. rewrite Em. cbn [bind]. destruct (indexes_in _ _ _ Em) as [_ Bm].
    match goal with |- context [offers _ _ _ _ _ _ ?X] => set (lb0 := X) end.
    assert (LB0 : Forall2 (item label) (map fst ds) lb0).
    { destruct LB as [[-> ->]|LB].
      - assert (A : filter (free []) ds = ds). { clear. induction ds as [|p ds IH]; cbn [filter]; [reflexivity|]. replace (free [] p) with true; [rewrite IH; reflexivity|]. unfold free. symmetry. apply forallb_forall. reflexivity. }
        unfold lb0. rewrite A. apply (labels_first ds [] []); [intros [o i] I; apply (H o i I)|exact ND|constructor].
      - unfold lb0. rewrite (labels_full ds labels ND LB); [exact LB|]. intros p I. apply filter_In in I. apply I. }
    destruct (IH (gone ++ step) (missing ++ more) (available ++ [st]) lb0) as (offered & lb & E2 & Len & Off & Lb).
    + intros k. rewrite in_app_iff, M, Bm. split.
      * intros [(v & G & P)|(v & V & P)]; exists v; rewrite in_app_iff; auto.
      * intros (v & G & P). rewrite in_app_iff in G. destruct G as [G|G]; [left|right]; eauto.
    + right. exact LB0.
    + intros s v Hs Hv. apply (S s v); [right; auto|auto].
    + exists (st :: offered), lb. rewrite E2. split; [rewrite <- app_assoc; reflexivity|]. split; [cbn [List.length]; congruence|]. split.
      * intros [|j] s Ej.
        -- injection Ej as <-. cbn [firstn concat]. rewrite app_nil_r. exists (map fst (filter (free missing) ds)). split; [|exact F]. apply kept_filter. apply (free_iff ds gone missing H M).
        -- cbn [firstn concat]. rewrite app_assoc. apply (Off j s Ej).
      * right. destruct Lb as [[_ ->]|Lb]; [exact LB0|exact Lb].
Qed.
Lemma ds_ok (outputs : list shown) : (forall o v, In o outputs -> In v (upstream o) -> In v inputs) ->
  exists ds, mapM (fun o => let* indexes := mapM (index inputs) (upstream o) in Ok (o, indexes)) outputs = Ok ds.
Proof.
  induction outputs as [|o os IH]; intros H; [eexists; reflexivity|]. destruct IH as [ds E]; [intros o' v O V; apply (H o' v); [right; auto|auto]|]. destruct (indexes_ok inputs (upstream o)) as [ks K]; [intros v V; apply (H o v); [left; auto|auto]|].
  exists ((o, ks) :: ds). cbn [mapM]. rewrite K. cbn [bind]. rewrite E. reflexivity.
Qed.
Lemma ds_in (outputs : list shown) : forall ds, mapM (fun o => let* indexes := mapM (index inputs) (upstream o) in Ok (o, indexes)) outputs = Ok ds ->
  map fst ds = outputs /\ forall o i, In (o, i) ds -> mapM (index inputs) (upstream o) = Ok i.
Proof.
  induction outputs as [|o os IH]; intros ds E; cbn [mapM] in E; [injection E as <-; split; [reflexivity|intros o i []]|]. destruct (mapM (index inputs) (upstream o)) as [ks|e] eqn:K; cbn [bind] in E; [|discriminate].
  match type of E with context [mapM ?f os] => destruct (mapM f os) as [ds'|e] eqn:Ds end; cbn [bind] in E; [|discriminate]. injection E as <-. destruct (IH ds' eq_refl) as [A B]. split; [cbn [map fst]; congruence|]. intros o' i [F|I]; [injection F as <- <-; exact K|auto].
Qed.
Lemma ds_err (outputs : list shown) e : mapM (fun o => let* indexes := mapM (index inputs) (upstream o) in Ok (o, indexes)) outputs = Err e -> e = ValueError /\ exists o v, In o outputs /\ In v (upstream o) /\ ~ In v inputs.
Proof.
  induction outputs as [|o os IH]; cbn [mapM]; [discriminate|]. destruct (mapM (index inputs) (upstream o)) as [ks|e'] eqn:K; cbn [bind].
  - match goal with |- context [mapM ?f os] => destruct (mapM f os) as [ds|e'] eqn:Ds end; cbn [bind]; [discriminate|]. intros E. injection E as ->. destruct (IH eq_refl) as [A (o' & v & O & V)]. split; [auto|]. exists o', v. split; [right; auto|auto].
  - intros E. injection E as ->. apply indexes_err in K. destruct K as [A (v & V & N)]. split; [auto|]. exists o, v. split; [left; auto|auto].
Qed.
(** A step with an input that is none of the workflow. *)
Lemma offer_total missing (ds : list (shown * list nat)) : forall step labels, (forall o i, In (o, i) ds -> In (variable o) variables) -> exists r, offer variables missing ds step labels = Ok r.
Proof.
  induction ds as [|[o ixs] ds IH]; intros step labels V; cbn [offer]; [eexists; reflexivity|]. destruct (forallb _ ixs); [|apply IH; intros; eapply V; right; eauto]. destruct (index_ok variables (variable o) (V o ixs (or_introl eq_refl))) as (k & K & _). rewrite K. cbn [bind]. apply IH. intros; eapply V; right; eauto.
Qed.
Lemma offers_err (ds : list (shown * list nat)) : (forall o i, In (o, i) ds -> In (variable o) variables) -> forall steps missing available labels s v, In s steps -> In v s -> ~ In v inputs -> offers variables inputs ds steps missing available labels = Err ValueError.
Proof.
  intros H. induction steps as [|step steps IH]; intros missing available labels s v S V N; [destruct S|]. cbn [offers]. destruct (offer_total missing ds [] labels H) as [r E]. rewrite E. cbn [bind].
  destruct (mapM (index inputs) step) as [more|e] eqn:M; cbn [bind].
  - destruct (indexes_in _ _ _ M) as [A _]. destruct S as [->|S]; [exfalso; apply N, A, V|]. eapply IH; eauto.
  - apply indexes_err in M. destruct M as [-> _]. reflexivity.
Qed.
End P.

(** What a read workflow is: when it is the one that was saved, and saving it again. *)
From Coq Require Import ZArith Bool String Ascii Arith Lia List.
From Verif Require Import Base BaseProofs ExecModel ExecSpec ExecStruct WiringModel WiringSpec WiringProofs VariablesModel ScriptModel ScriptSpec SavedModel SavedSpec SavedProofs SavedBack SavedMain.
Import ListNotations.
Open Scope string_scope.
Open Scope list_scope.

Lemma NoDup_map_on {X Y} (f : X -> Y) l : NoDup l -> (forall a b, In a l -> In b l -> f a = f b -> a = b) -> NoDup (map f l).
Proof.
  intros ND. induction ND as [|x l Nx ND IH]; intros H; cbn [map]; constructor.
  - intros I. apply in_map_iff in I. destruct I as [y [Ey Iy]]. rewrite (H y x) in Iy; simpl; auto.
  - apply IH. intros a b Ia Ib. apply H; simpl; auto.
Qed.

Lemma relabel_wf d h : well_formed d -> separates h d -> well_formed (relabel h d).
Proof.
  intros WF SEP. assert (PI := ports_incl d WF). assert (PE := ends_in d WF). split.
  - rewrite (block_variables_map d h). apply NoDup_map_on; [apply WF|]. intros a b Ia Ib. apply SEP; auto.
  - cbn [relabel pipes]. rewrite map_map. cbn [snd]. rewrite <- (map_map snd h). apply NoDup_map_on; [apply WF|].
    intros a b Ia Ib. apply in_map_iff in Ia. apply in_map_iff in Ib. destruct Ia as [p [<- Ip]], Ib as [q [<- Iq]]. apply SEP; apply PE; auto.
  - cbn [relabel pipes blocks]. intros s t I. apply in_map_iff in I. destruct I as [[s0 t0] [Eq I]]. inversion Eq; subst s t.
    destruct (wf_target d WF s0 t0 I) as [b [Ib It]]. eexists. split; [apply in_map; exact Ib|]. cbn [b_in snd]. apply in_map. exact It.
  - cbn [relabel pipes blocks]. intros s t b I Ib. apply in_map_iff in I. destruct I as [[s0 t0] [Eq I]]. inversion Eq; subst s t.
    apply in_map_iff in Ib. destruct Ib as [b0 [<- Ib]]. cbn [b_in fst]. intros J. apply in_map_iff in J. destruct J as [v [Ev Iv]].
    assert (v = s0). { apply SEP; auto; [apply PI, in_block_variables; eauto|exact (proj1 (PE _ I))]. } subst v.
    exact (wf_source d WF s0 t0 b0 I Ib Iv).
  - cbn [relabel output blocks]. intros o Eo. destruct (output d) as [o0|] eqn:E0; [|discriminate]. inversion Eo; subst o.
    destruct (wf_output d WF o0 E0) as [b [Ib Io]]. eexists. split; [apply in_map; exact Ib|]. cbn [b_out]. apply in_map. exact Io.
Qed.

Lemma relabel_agree d h k : well_formed d -> relabel h d = relabel k d -> forall v, In v (variables d) -> h v = k v.
Proof.
  intros WF E v I. unfold relabel in E. injection E as EB EP EO. apply (in_variables d WF) in I. destruct I as [I|I].
  - apply in_block_variables in I. destruct I as [b [Ib Iv]].
    pose proof (ext_in_map EB b Ib) as Q. cbn beta in Q. inversion Q as [[Q1 Q2]].
    destruct Iv as [Iv|Iv]; [exact (ext_in_map Q1 v Iv)|exact (ext_in_map Q2 v Iv)].
  - apply (nbv_In d WF) in I. destruct I as [I _]. apply in_map_iff in I. destruct I as [[s t] [<- I]].
    pose proof (ext_in_map EP (s, t) I) as Q. cbn [fst snd] in *. congruence.
Qed.

Lemma Forall2_nth_intro {A B} (R : A -> B -> Prop) l : forall m, length l = length m ->
  (forall i a b, nth_error l i = Some a -> nth_error m i = Some b -> R a b) -> Forall2 R l m.
Proof.
  induction l as [|a l IH]; intros [|b m] L H; try discriminate; constructor.
  - apply (H 0); reflexivity.
  - apply IH; [simpl in L; lia|]. intros i. apply (H (S i)).
Qed.

Section Restore.
Context {V J : Type}.
Notation variable := (variable V tag).
Notation wf := (wf V).
Notation part := (part V).
Variable params : cls -> string -> list (VariablesModel.variable V string).
Variable text : string -> V.
Variable ser : V -> res J.
Variable des : J -> res V.
Hypothesis UP : unlocked_params params.
Notation conf_ports := (conf_ports params text).
Notation constructed := (constructed params text).
Notation sound := (sound params text).
Notation fits := (fits params text).
Notation back := (back params text).
Notation part_back := (part_back params text).
Notation restorable := (restorable params text).
Notation part_restorable := (part_restorable params text).
Notation recovered := (recovered ser des).
Notation part_sound := (part_sound params text).

Lemma restorable_eq d inf ps ss det descr doc n : restorable (Wf d inf ps ss det descr doc n) =
      ((forall v, In v (nonblock_variables d) -> v_lock (inf v) = false)
      /\ (forall s, In s ss -> st_display s = None -> st_index s = None)
      /\ det = (if existsb (fun v => String.eqb (t_name (v_label (inf v))) "_result_name_") (nonblock_variables d) then []
                else [mkVar None false (mkTag "_result_name_" "Result Name" (0, 0)%Z)])
      /\ all2 (fun p b => part_restorable p
                 /\ exists ins outs, constructed p = Ok (ins, outs)
                      /\ all2 (pristine (deprecated p)) (map inf (b_in b)) ins
                      /\ all2 (pristine (deprecated p)) (map inf (b_out b)) outs) ps (blocks d)).
Proof. reflexivity. Qed.
Lemma keeps_locks_eq d inf ps ss det descr doc n : keeps_locks (Wf d inf ps ss det descr doc n : wf) =
  all2 (fun p b => part_keeps_locks p (map inf (b_in b)) (map inf (b_out b))) ps (blocks d).
Proof. reflexivity. Qed.
Lemma sound_eq d inf ps ss det descr doc n : sound (Wf d inf ps ss det descr doc n) =
      (well_formed d /\ all2 fits ps (blocks d)
      /\ (forall s, In s ss -> incl (st_inputs s) (variables d) /\ incl (st_group_inputs s) (variables d))).
Proof. reflexivity. Qed.

Lemma wf_of w : sound w -> well_formed (diagram w).
Proof. destruct w. intros H. apply H. Qed.

Lemma same_data (w w' : wf) : same w w' -> exists h, separates h (diagram w) /\ diagram w' = relabel h (diagram w)
  /\ forall v, In v (variables (diagram w)) -> info w' (h v) = info w v.
Proof. intros H. destruct H. eauto. Qed.

Lemma wfblock_same (w w' : wf) n : sound w -> same w w' -> wfblock_ports w' n = wfblock_ports w n.
Proof.
  intros S0 H. pose proof (wf_of w S0) as WF. destruct (same_data w w' H) as [h [SEP [D I]]]. unfold wfblock_ports.
  rewrite D, (inputs_map (diagram w) WF h SEP).
  assert (M : forall l, incl l (variables (diagram w)) ->
     mapM (fun v => copy_as (n ++ " - " ++ t_name (v_label (info w' v)))%string (info w' v)) (map h l)
     = mapM (fun v => copy_as (n ++ " - " ++ t_name (v_label (info w v)))%string (info w v)) l).
  { induction l as [|v l IH]; intros In0; [reflexivity|]. cbn [map mapM]. rewrite (I v) by (apply In0; simpl; auto).
    rewrite IH by (intros x J0; apply In0; simpl; auto). reflexivity. }
  rewrite M by (intros v Iv; unfold inputs in Iv; apply filter_In in Iv; tauto).
  cbn [relabel output]. destruct (output (diagram w)) as [o|] eqn:Eo; [|reflexivity]. cbn [option_map of_option bind].
  rewrite (I o); [reflexivity|]. destruct (wf_output _ WF o Eo) as [b [Ib Io]]. apply (in_variables _ WF). left.
  apply in_block_variables. eauto.
Qed.

Lemma constructed_same p p' : part_sound p -> same_part p p' -> constructed p' = constructed p.
Proof.
  intros S0 H. destruct H as [c n q|w w' n q H|w w' i o bn bp k n q H]; [reflexivity| |reflexivity].
  cbn [SavedSpec.constructed]. apply wfblock_same; auto.
Qed.
Lemma deprecated_same (p p' : part) : same_part p p' -> deprecated p' = deprecated p.
Proof. intros H. destruct H; reflexivity. Qed.

(** ** A workflow left as constructed comes back identical *)
Lemma pristine_back exact old (xs ys zs : list variable) : ports_back exact old xs ys zs -> exact = true ->
  all2 (pristine old) xs ys -> zs = xs.
Proof.
  intros H -> P. induction H as [|x y z xs ys zs B H IH]; [reflexivity|]. destruct P as [P1 P2]. f_equal; auto.
  unfold port_back, pristine in *. destruct old; [congruence|]. destruct P1 as [N Q]. subst z. rewrite <- N, <- Q. destruct x as [dv l [a b c]]. reflexivity.
Qed.

Lemma pristine_of exact old (xs ys zs : list variable) : ports_back exact old xs ys zs -> zs = xs -> all2 (pristine old) xs ys.
Proof.
  intros H. induction H as [|x y z xs ys zs B H IH]; intros E; [exact I|]. inversion E; subst. split; auto.
  unfold port_back, pristine in *. destruct old; auto. rewrite B. cbn [v_label t_name t_pos]. auto.
Qed.

Lemma restored_all : forall w, sound w -> restorable w -> forall w', back true w w' -> same w w'.
Proof.
  apply (wf_all (fun w => sound w -> restorable w -> forall w', back true w w' -> same w w')
                (fun p => part_sound p -> part_restorable p -> forall p', part_back true p p' -> same_part p p')).
  - intros d inf ps ss det descr doc n F S0 R w' B. rewrite sound_eq in S0. destruct S0 as [WF [AF SS]].
    rewrite restorable_eq in R. destruct R as [R1 [R2 [R3 R4]]].
    inversion B as [? ? ? ? ? ? ? ? h info' ps' SEP F2 NB PT]; subst. clear B.
    apply all2_nth in AF. destruct AF as [LP AF]. apply all2_nth in R4. destruct R4 as [_ R4].
    assert (LP' : length ps' = length ps) by (symmetry; eapply Forall2_len; eauto).
    assert (SP : forall j p p', nth_error ps j = Some p -> nth_error ps' j = Some p' -> same_part p p').
    { intros j p p' Np Np'. destruct (nth_len ps (blocks d) j p (eq_sym LP) Np) as [b Nb].
      rewrite Forall_forall in F. apply (F p (nth_error_In _ _ Np)).
      - exact (fits_sound params text p b (AF j p b Np Nb)).
      - apply (R4 j p b Np Nb).
      - exact (Forall2_nth _ _ _ F2 j p p' Np Np'). }
    replace (map (step_back h) ss) with (map (fun s => mkStep (st_label s) (map h (st_inputs s)) (st_group_id s) (map h (st_group_inputs s))
                                (st_display s) (st_doc s) (st_index s) (st_id s)) ss).
    2:{ apply map_ext_in. intros s Is. unfold step_back. specialize (R2 s Is). destruct (st_display s); [reflexivity|]. rewrite R2; reflexivity. }
    constructor; auto.
    + apply (Forall2_nth_intro same_part ps ps'); [congruence|exact SP].
    + intros v I. apply (in_variables d WF) in I. destruct I as [I|I].
      2:{ rewrite NB by auto. unfold nbv_back. specialize (R1 v I). destruct (inf v) as [dv l t]. cbn in *. subst l. reflexivity. }
      apply in_block_variables in I. destruct I as [b [Ib Iv]]. destruct (In_nth_error _ _ Ib) as [j Nb].
      destruct (nth_len (blocks d) ps j b LP Nb) as [p Np]. destruct (nth_len ps ps' j p LP' Np) as [p' Np'].
      destruct (PT j b p' Nb Np') as [ins [outs [C [P1 P2]]]]. destruct (R4 j p b Np Nb) as [_ [ins0 [outs0 [C0 [Q1 Q2]]]]].
      pose proof (SP j p p' Np Np') as SPj. pose proof (constructed_same p p' (fits_sound params text p b (AF j p b Np Nb)) SPj) as CE.
      rewrite C, C0 in CE. inversion CE; subst ins0 outs0. rewrite (deprecated_same p p' SPj) in *.
      apply pristine_back in P1; auto. apply pristine_back in P2; auto.
      destruct Iv as [Iv|Iv]; [exact (ext_in_map P1 v Iv)|exact (ext_in_map P2 v Iv)].
  - intros c n q _ _ p' B. inversion B; subst. constructor.
  - intros w n q IH S0 R p' B. inversion B; subst. constructor. apply IH; auto.
  - intros w i o bn bp k n q IH S0 [R [ins1 [outs1 [C [Q1 Q2]]]]] p' B.
    inversion B as [| |? w' ? ? ins2 outs2 i' o' ? ? ? ? ? BW C' P1 P2]; subst.
    pose proof (IH S0 R w' BW) as SW. rewrite (wfblock_same w w' bn S0 SW), C in C'. inversion C'; subst ins2 outs2.
    apply pristine_back in P1; auto. apply pristine_back in P2; auto. subst. constructor. exact SW.
Qed.

(** ** What comes back identical *)
Lemma wfblock_locks (w : wf) n io : wfblock_ports w n = Ok io ->
  length (fst io) = length (inputs (diagram w))
  /\ (forall k v y, nth_error (inputs (diagram w)) k = Some v -> nth_error (fst io) k = Some y -> v_lock y = v_lock (info w v))
  /\ (forall o y, output (diagram w) = Some o -> In y (snd io) -> v_lock y = v_lock (info w o))
  /\ length (snd io) = 1.
Proof.
  unfold wfblock_ports. destruct (mapM _ _) as [l|] eqn:M; [|discriminate]. cbn [bind].
  destruct (output (diagram w)) as [o|]; [|discriminate]. cbn [of_option bind].
  destruct (copy_as _ _) as [y|] eqn:C; [|discriminate]. cbn [bind]. intros E. inversion E; subst io. cbn [fst snd].
  apply mapM_nth in M. destruct M as [L M]. split; [exact L|]. split; [|split; [|reflexivity]].
  - intros k v z Nv Nz. destruct (M k v Nv) as [c [Nc Ec]]. rewrite Nz in Nc. inversion Nc; subst c. eapply copy_lock; eauto.
  - intros o' z Eo [<-|[]]. inversion Eo; subst o'. eapply copy_lock; eauto.
Qed.

Lemma lock_below (xs ys zs : list variable) : ports_back false false xs ys zs -> forall k y z,
  nth_error ys k = Some y -> nth_error zs k = Some z -> v_lock y = true -> v_lock z = true.
Proof.
  intros H. induction H as [|x y z xs ys zs B H IH]; intros [|k] a b; simpl; try discriminate; eauto.
  intros X Y L. inversion X; inversion Y; subst a b. unfold port_back in B. subst z. cbn [v_lock]. rewrite L. apply orb_true_r.
Qed.

(** the ports that come back of a block that nests a workflow are locked when inner ones are *)
Lemma wfblock_keeps (w : wf) n io xs xs' ys ys' : wfblock_ports w n = Ok io ->
  ports_back false false xs (fst io) xs' -> ports_back false false ys (snd io) ys' ->
  all2 (fun v x => v_lock (info w v) = true -> v_lock x = true) (inputs (diagram w)) xs'
  /\ (forall o x, output (diagram w) = Some o -> In x ys' -> v_lock (info w o) = true -> v_lock x = true).
Proof.
  intros C P1 P2. destruct (wfblock_locks w n io C) as [L1 [K1 [K2 L2]]].
  destruct (ports_length _ _ _ _ _ P1) as [A1 A2]. destruct (ports_length _ _ _ _ _ P2) as [B1 B2]. split.
  - apply all2_intro; [congruence|]. intros k v x Nv Nx Lv.
    destruct (nth_len (inputs (diagram w)) (fst io) k v L1 Nv) as [y Ny].
    apply (lock_below _ _ _ P1 k y x Ny Nx). rewrite (K1 k v y Nv Ny). exact Lv.
  - intros o x Eo Ix Lo. destruct (In_nth_error _ _ Ix) as [k Nx].
    destruct (nth_len ys' (snd io) k x) as [y Ny]; [congruence|auto|].
    apply (lock_below _ _ _ P2 k y x Ny Nx). rewrite (K2 o y Eo (nth_error_In _ _ Ny)). exact Lo.
Qed.

Lemma foreach_keeps (ins : list variable) i io xs xs' : foreach_ports ins i = Ok io -> ports_back false false xs (fst io) xs' ->
  forall k x y, k <> i -> nth_error ins k = Some x -> nth_error xs' k = Some y -> v_lock x = true -> v_lock y = true.
Proof.
  intros C P k x y D Nx Ny L. unfold foreach_ports in C. destruct (nth_error ins i) eqn:N; [|discriminate]. cbn [of_option bind] in C.
  destruct (mapM _ (enumerate ins)) as [l|] eqn:M; [|discriminate]. cbn [bind] in C. inversion C; subst io. cbn [fst] in *.
  apply mapM_nth in M. destruct M as [_ M]. destruct (M k (k, x) (enumerate_at ins k x Nx)) as [c [Nc Ec]]. cbn [fst snd] in Ec.
  destruct (Nat.eqb_spec k i); [contradiction|]. apply copy_lock in Ec. apply (lock_below _ _ _ P k c y Nc Ny). congruence.
Qed.

Definition block_back := block_back params text.

Lemma part_keeps (p' : part) xs ys xs' ys' : block_back false (p', (xs', ys')) xs ys ->
  match p' with
  | Part (KConf _) _ _ => True
  | Part (KWorkflow w) _ _ => keeps_locks w
  | Part (KForEach w bi bo bn _ _) _ _ => keeps_locks w /\ exists io xi xo, wfblock_ports w bn = Ok io
      /\ ports_back false false xi (fst io) bi /\ ports_back false false xo (snd io) bo
  end -> part_keeps_locks p' xs' ys'.
Proof.
  intros [io [C [P1 P2]]] H. destruct p' as [[c|w|w bi bo bn bp k] n q]; [exact I| |]; cbn [fst snd SavedSpec.constructed deprecated] in *.
  - split; [exact H|]. eapply wfblock_keeps; eauto.
  - destruct H as [H [io2 [xi [xo [C2 [Q1 Q2]]]]]]. destruct (wfblock_keeps w bn io2 xi bi xo bo C2 Q1 Q2) as [W1 W2].
    split; [exact H|]. split; [exact W1|]. split; [exact W2|]. exact (foreach_keeps bi k io xs xs' C P1).
Qed.

Lemma same_inv d inf ps ss det descr doc n d' inf' ps' ss' det' descr' doc' n' :
  same (Wf d inf ps ss det descr doc n : wf) (Wf d' inf' ps' ss' det' descr' doc' n') ->
  exists k, separates k d /\ d' = relabel k d /\ Forall2 same_part ps ps'
    /\ (forall v, In v (variables d) -> inf' (k v) = inf v)
    /\ ss' = map (fun s => mkStep (st_label s) (map k (st_inputs s)) (st_group_id s) (map k (st_group_inputs s))
                                (st_display s) (st_doc s) (st_index s) (st_id s)) ss /\ det' = det.
Proof. intros H. inversion H; subst. exists h. auto 10. Qed.

Lemma only_all : forall w, sound w -> forall w', back false w w' -> same w w' -> restorable w /\ keeps_locks w.
Proof.
  apply (wf_all (fun w => sound w -> forall w', back false w w' -> same w w' -> restorable w /\ keeps_locks w)
     (fun p => part_sound p -> forall p', part_back false p p' -> same_part p p' -> part_restorable p
         /\ forall xs ys, block_back false (p, (xs, ys)) xs ys -> part_keeps_locks p xs ys)).
  - intros d inf ps ss det descr doc n F S0 w' B SM. rewrite sound_eq in S0. destruct S0 as [WF [AF SS]].
    inversion B as [? ? ? ? ? ? ? ? h info' ps' SEP F2 NB PT]; subst. clear B.
    apply same_inv in SM. destruct SM as [k [SEP2 [Ed [F3 [I2 [Es Et]]]]]]. symmetry in Ed, Es.
    assert (AG := relabel_agree d k h WF Ed).
    apply all2_nth in AF. destruct AF as [LP AF].
    assert (LP' : length ps' = length ps) by (symmetry; eapply Forall2_len; eauto).
    assert (INF : forall v, In v (variables d) -> info' (h v) = inf v) by (intros v I; rewrite <- (AG v I); auto).
    assert (PI := ports_incl d WF).
    assert (PARTS : forall j p b, nth_error ps j = Some p -> nth_error (blocks d) j = Some b ->
      part_restorable p /\ part_keeps_locks p (map inf (b_in b)) (map inf (b_out b))
      /\ exists ins outs, constructed p = Ok (ins, outs)
                      /\ all2 (pristine (deprecated p)) (map inf (b_in b)) ins
                      /\ all2 (pristine (deprecated p)) (map inf (b_out b)) outs).
    { intros j p b Np Nb. destruct (nth_len ps ps' j p LP' Np) as [p' Np'].
      pose proof (fits_sound params text p b (AF j p b Np Nb)) as SP.
      pose proof (Forall2_nth _ _ _ F3 j p p' Np Np') as SPj. pose proof (constructed_same p p' SP SPj) as CE.
      destruct (PT j b p' Nb Np') as [ins [outs [C [P1 P2]]]]. rewrite (deprecated_same p p' SPj) in *.
      assert (M1 : map (fun v => info' (h v)) (b_in b) = map inf (b_in b)).
      { apply map_ext_in. intros v I. apply INF, PI, in_block_variables. exists b. split; [eapply nth_error_In; eauto|auto]. }
      assert (M2 : map (fun v => info' (h v)) (b_out b) = map inf (b_out b)).
      { apply map_ext_in. intros v I. apply INF, PI, in_block_variables. exists b. split; [eapply nth_error_In; eauto|auto]. }
      rewrite Forall_forall in F.
      destruct (F p (nth_error_In _ _ Np) SP p' (Forall2_nth _ _ _ F2 j p p' Np Np') SPj) as [R K].
      split; [exact R|]. split.
      - apply K. exists (ins, outs). cbn [fst snd]. rewrite <- CE, C. rewrite M1 in P1. rewrite M2 in P2. auto.
      - exists ins, outs. rewrite <- CE, C. split; auto. split; [exact (pristine_of _ _ _ _ _ P1 M1)|exact (pristine_of _ _ _ _ _ P2 M2)]. }
    split.
    + rewrite restorable_eq. split; [|split; [|split]].
      * intros v I. specialize (NB v I). rewrite (INF v) in NB by (apply (in_variables d WF); auto). rewrite NB. reflexivity.
      * intros s Is D. pose proof (ext_in_map Es s Is) as Q. unfold step_back in Q. rewrite D in Q. inversion Q; auto.
      * congruence.
      * apply all2_intro; [exact LP|]. intros j p b Np Nb. destruct (PARTS j p b Np Nb) as [A [_ C]]. auto.
    + rewrite keeps_locks_eq. apply all2_intro; [exact LP|]. intros j p b Np Nb. apply (PARTS j p b Np Nb).
  - intros c n q _ p' B SM. split; [exact I|]. intros. exact I.
  - intros w n q IH S0 p' B SM. inversion B as [|? w' ? ? BW|]; subst. inversion SM as [|? ? ? ? SW|]; subst.
    destruct (IH S0 w' BW SW) as [R K]. split; [exact R|]. intros xs ys BB. exact (part_keeps _ xs ys xs ys BB K).
  - intros w i o bn bp k n q IH S0 p' B SM.
    inversion B as [| |? w' ? ? ins2 outs2 i' o' ? ? ? ? ? BW C' P1 P2]; subst. inversion SM as [| |? ? ? ? ? ? ? ? ? SW]; subst.
    destruct (IH S0 w' BW SW) as [R K]. rewrite (wfblock_same w w' bn S0 SW) in C'. split.
    + split; [exact R|]. exists ins2, outs2. split; [exact C'|]. split; eapply pristine_of; eauto.
    + intros xs ys BB. apply (part_keeps _ xs ys xs ys BB). split; [exact K|]. exists (ins2, outs2). cbn [fst snd]. eauto.
Qed.

(** ** Saving again *)
Lemma pristine_new exact old (xs ys zs : list variable) : ports_back exact old xs ys zs -> all2 (pristine old) zs ys.
Proof.
  intros H. induction H as [|x y z xs ys zs B H IH]; [exact I|]. split; auto.
  unfold port_back, pristine in *. subst z. destruct old; auto.
Qed.

Definition from (l : list variable) (x' : variable) : Prop :=
  v_default x' = None \/ exists x, In x l /\ v_default x = v_default x'.

Lemma from_incl l m x : incl l m -> from l x -> from m x.
Proof. intros I [H|[y [H1 H2]]]; [left; auto|right; eauto]. Qed.

Lemma ports_from exact (xs ys zs : list variable) : ports_back exact false xs ys zs -> forall z, In z zs -> from xs z.
Proof.
  intros H. induction H as [|x y z xs ys zs B H IH]; intros u; simpl; [tauto|]. intros [<-|I].
  - right. exists x. split; [left; reflexivity|]. unfold port_back in B. subst z. reflexivity.
  - eapply from_incl; [|apply IH; exact I]. intros a. simpl. auto.
Qed.

Lemma old_defaults (p : part) ins outs : deprecated p = true -> constructed p = Ok (ins, outs) ->
  forall x, In x (ins ++ outs) -> v_default x = None.
Proof.
  destruct p as [[c|w|w i o bn bp k] n q]; cbn [deprecated]; try discriminate. cbn [SavedSpec.constructed].
  intros D E. assert (E' : conf_ports c = (ins, outs)) by congruence. clear E. replace ins with (fst (conf_ports c)) by (rewrite E'; reflexivity).
  replace outs with (snd (conf_ports c)) by (rewrite E'; reflexivity). clear E'.
  destruct c; try discriminate; simpl; intros x H; (destruct H as [<-|[<-|[]]]; reflexivity).
Qed.

Lemma back_diagram exact w w' : back exact w w' -> exists h, separates h (diagram w) /\ diagram w' = relabel h (diagram w).
Proof. intros B. destruct B. eauto. Qed.

Lemma kept_all : forall w, sound w -> forall w', back false w w' ->
  sound w' /\ restorable w' /\ keeps_locks w' /\ forall x', In x' (all_variables w') -> from (all_variables w) x'.
Proof.
  apply (wf_all (fun w => sound w -> forall w', back false w w' ->
     sound w' /\ restorable w' /\ keeps_locks w' /\ forall x', In x' (all_variables w') -> from (all_variables w) x')
    (fun p => forall b, fits p b -> forall p', part_back false p p' ->
       (forall b', length (b_in b') = length (b_in b) -> length (b_out b') = length (b_out b) -> fits p' b')
       /\ part_restorable p' /\ (forall x', In x' (part_variables p') -> from (part_variables p) x')
       /\ forall xs ys xs' ys', block_back false (p', (xs', ys')) xs ys -> part_keeps_locks p' xs' ys')).
  - intros d inf ps ss det descr doc n F S0 w' B. rewrite sound_eq in S0. destruct S0 as [WF [AF SS]].
    inversion B as [? ? ? ? ? ? ? ? h info' ps' SEP F2 NB PT]; subst. clear B.
    apply all2_nth in AF. destruct AF as [LP AF].
    assert (LP' : length ps' = length ps) by (symmetry; eapply Forall2_len; eauto).
    rewrite Forall_forall in F.
    assert (AT : forall j p' b', nth_error ps' j = Some p' -> nth_error (blocks (relabel h d)) j = Some b' ->
       exists p b, nth_error ps j = Some p /\ nth_error (blocks d) j = Some b /\ b' = rename_block h b).
    { intros j p' b' Np' Nb'. cbn [relabel blocks] in Nb'. rewrite nth_error_map in Nb'.
      destruct (nth_error (blocks d) j) as [b|] eqn:Nb; [|discriminate]. inversion Nb'; subst b'.
      destruct (nth_len (blocks d) ps j b LP Nb) as [p Np]. exists p, b. auto. }
    assert (LB : length ps' = length (blocks (relabel h d))) by (cbn [relabel blocks]; rewrite map_length; congruence).
    assert (NBM := nbv_map d WF h SEP).
    split; [|split; [|split]].
    + rewrite sound_eq. split; [apply relabel_wf; auto|]. split.
      * apply all2_intro; [exact LB|]. intros j p' b' Np' Nb'. destruct (AT j p' b' Np' Nb') as [p [b [Np [Nb ->]]]].
        apply (F p (nth_error_In _ _ Np) b (AF j p b Np Nb) p' (Forall2_nth _ _ _ F2 j p p' Np Np')); cbn [rename_block b_in b_out]; apply map_length.
      * intros s Is. apply in_map_iff in Is. destruct Is as [s0 [<- Is]]. destruct (SS s0 Is) as [S1 S2]. cbn [step_back st_inputs st_group_inputs].
        rewrite (variables_map d WF h SEP). split; intros v I; apply in_map_iff in I; destruct I as [u [<- I]]; apply in_map; auto.
    + rewrite restorable_eq. split; [|split; [|split]].
      * rewrite NBM. intros v I. apply in_map_iff in I. destruct I as [u [<- I]]. rewrite NB by auto. reflexivity.
      * intros s Is D. apply in_map_iff in Is. destruct Is as [s0 [<- Is]]. cbn [step_back st_display st_index] in *. rewrite D. reflexivity.
      * rewrite NBM, existsb_map. erewrite existsb_ext'; [reflexivity|]. intros v I. cbn beta. rewrite NB by auto. reflexivity.
      * apply all2_intro; [exact LB|]. intros j p' b' Np' Nb'. destruct (AT j p' b' Np' Nb') as [p [b [Np [Nb ->]]]].
        destruct (PT j b p' Nb Np') as [ins [outs [C [P1 P2]]]]. split.
        -- apply (F p (nth_error_In _ _ Np) b (AF j p b Np Nb) p' (Forall2_nth _ _ _ F2 j p p' Np Np')).
        -- exists ins, outs. split; auto. cbn [rename_block b_in b_out]. rewrite !map_map. split; eapply pristine_new; eauto.
    + rewrite keeps_locks_eq. apply all2_intro; [exact LB|]. intros j p' b' Np' Nb'. destruct (AT j p' b' Np' Nb') as [p [b [Np [Nb ->]]]].
      destruct (PT j b p' Nb Np') as [ins [outs [C [P1 P2]]]]. cbn [rename_block b_in b_out]. rewrite !map_map.
      destruct (F p (nth_error_In _ _ Np) b (AF j p b Np Nb) p' (Forall2_nth _ _ _ F2 j p p' Np Np')) as [_ [_ [_ K]]].
      apply (K (map inf (b_in b)) (map inf (b_out b))).
      exists (ins, outs). auto.
    + rewrite !all_variables_eq. rewrite (variables_map d WF h SEP). intros x' I. apply in_app_or in I. destruct I as [I|I].
      * rewrite map_map in I. apply in_map_iff in I. destruct I as [v [<- I]].
        assert (IV := I). apply (in_variables d WF) in I. destruct I as [I|I].
        2:{ rewrite NB by auto. right. exists (inf v). split; [|reflexivity]. apply in_or_app. left. apply in_map. auto. }
        apply in_block_variables in I. destruct I as [b [Ib Iv]]. destruct (In_nth_error _ _ Ib) as [j Nb].
        destruct (nth_len (blocks d) ps' j b) as [p' Np']; [congruence|auto|].
        destruct (PT j b p' Nb Np') as [ins [outs [C [P1 P2]]]].
        assert (G : forall vs ys, (forall y, In y ys -> In y (ins ++ outs)) -> incl vs (variables d) ->
          ports_back false (deprecated p') (map inf vs) ys (map (fun v => info' (h v)) vs) -> In v vs ->
          from (map inf (variables d) ++ det ++ flat_map part_variables ps) (info' (h v))).
        { intros vs ys Y Inc PB Ivs. destruct (deprecated p') eqn:D.
          - left. destruct (In_nth_error _ _ Ivs) as [k Nk]. destruct (ports_length _ _ _ _ _ PB) as [L1 _]. rewrite map_length in L1.
            destruct (nth_len vs ys k v L1 Nk) as [y Ny].
            pose proof (ports_nth _ _ _ _ _ PB k (inf v) y (info' (h v)) (map_nth_error inf k vs Nk) Ny
                  (map_nth_error (fun v => info' (h v)) k vs Nk)) as Z. unfold port_back in Z. rewrite Z.
            apply (old_defaults p' ins outs D C). apply Y. eapply nth_error_In; eauto.
          - eapply from_incl; [|apply (ports_from _ _ _ _ PB); apply (in_map (fun v => info' (h v))); exact Ivs].
            intros a Ia. apply in_or_app. left. apply in_map_iff in Ia. destruct Ia as [u [<- Iu]]. apply in_map. auto. }
        assert (PI := ports_incl d WF).
        destruct Iv as [Iv|Iv]; [apply (G (b_in b) ins)|apply (G (b_out b) outs)]; auto; try (intros y Iy; apply in_or_app; auto);
          intros u Iu; apply PI, in_block_variables; eauto.
      * apply in_app_or in I. destruct I as [I|I].
        -- left. destruct (existsb _ _); [destruct I|]. destruct I as [<-|[]]. reflexivity.
        -- apply flat_map_nth in I. destruct I as [j [p' [Np' I]]].
           destruct (nth_len ps' ps j p' (eq_sym LP') Np') as [p Np]. destruct (nth_len ps (blocks d) j p (eq_sym LP) Np) as [b Nb].
           destruct (F p (nth_error_In _ _ Np) b (AF j p b Np Nb) p' (Forall2_nth _ _ _ F2 j p p' Np Np')) as [_ [_ [K _]]].
           eapply from_incl; [|apply K; exact I].
           intros a Ia. apply in_or_app. right. apply in_or_app. right. apply flat_map_nth. eauto.
  - intros c n q b [RG [L1 L2]] p' B. inversion B; subst. split; [|split; [exact I|split]].
    + intros b' E1 E2. split; [exact RG|]. split; congruence.
    + intros x' [].
    + intros. exact I.
  - intros w n q IH b [S0 [OW [L1 L2]]] p' B. inversion B as [|? w' ? ? BW|]; subst.
    destruct (IH S0 w' BW) as [A1 [A2 [A3 A4]]]. destruct (back_diagram _ _ _ BW) as [h [SEP D]].
    assert (WF := wf_of w S0). split; [|split; [|split]].
    + intros b' E1 E2. split; [exact A1|]. rewrite D. cbn [relabel output]. rewrite (inputs_map _ WF h SEP), map_length.
      split; [|split; congruence]. destruct (output (diagram w)); [discriminate|congruence].
    + exact A2.
    + exact A4.
    + intros xs ys xs' ys' BB. exact (part_keeps _ xs ys xs' ys' BB A3).
  - intros w i o bn bp k n q IH b [S0 [OW [LB1 [LB2 [LK [L1 L2]]]]]] p' B.
    inversion B as [| |? w' ? ? ins2 outs2 i' o' ? ? ? ? ? BW C' P1 P2]; subst.
    destruct (IH S0 w' BW) as [A1 [A2 [A3 A4]]]. destruct (back_diagram _ _ _ BW) as [h [SEP D]].
    assert (WF := wf_of w S0). destruct (ports_length _ _ _ _ _ P1) as [M1 M2]. destruct (ports_length _ _ _ _ _ P2) as [M3 M4].
    split; [|split; [|split]].
    + intros b' E1 E2. split; [exact A1|]. rewrite D. cbn [relabel output]. rewrite (inputs_map _ WF h SEP), map_length.
      split; [destruct (output (diagram w)); [discriminate|congruence]|]. repeat split; try congruence.
    + split; [exact A2|]. exists ins2, outs2. split; [exact C'|]. split; eapply pristine_new; eauto.
    + intros x' I. change (part_variables (Part (KForEach w' i' o' bn bp k) n q)) with (i' ++ o' ++ all_variables w') in I.
      change (part_variables (Part (KForEach w i o bn bp k) n q)) with (i ++ o ++ all_variables w).
      apply in_app_or in I. destruct I as [I|I]; [|apply in_app_or in I; destruct I as [I|I]].
      * eapply from_incl; [|eapply ports_from; [exact P1|exact I]]. apply incl_appl, incl_refl.
      * eapply from_incl; [|eapply ports_from; [exact P2|exact I]]. apply incl_appr, incl_appl, incl_refl.
      * eapply from_incl; [|apply A4; exact I]. apply incl_appr, incl_appr, incl_refl.
    + intros xs ys xs' ys' BB. apply (part_keeps _ xs ys xs' ys' BB). split; [exact A3|]. exists (ins2, outs2). cbn [fst snd]. eauto.
Qed.

Lemma recovered_from l m : recovered l -> (forall x, In x m -> from l x) -> recovered m.
Proof.
  intros R F x v j I D S0. destruct (F x I) as [N|[y [Iy Dy]]]; [congruence|]. apply (R y v j Iy); congruence.
Qed.

Definition good (x : variable) : Prop := v_lock x = true -> v_default x <> None.

Lemma ports_good (xs ys zs : list variable) : ports_back true false xs ys zs -> Forall good xs -> Forall good zs.
Proof.
  intros H. induction H as [|x y z xs ys zs B H IH]; intros G; [constructor|]. inversion G; subst. constructor; auto.
  unfold port_back in B. subst z. assumption.
Qed.

Lemma good_all : forall w, sound w -> Forall good (all_variables w) -> forall w', back true w w' -> Forall good (all_variables w').
Proof.
  apply (wf_all (fun w => sound w -> Forall good (all_variables w) -> forall w', back true w w' -> Forall good (all_variables w'))
    (fun p => part_sound p -> Forall good (part_variables p) -> forall p', part_back true p p' -> Forall good (part_variables p'))).
  - intros d inf ps ss det descr doc n F S0 G w' B. 
    destruct (back_locks params text UP _ _ S0 B G) as [k [SEPk [Dk K]]]. rewrite sound_eq in S0. destruct S0 as [WF [AF SS]].
    inversion B as [? ? ? ? ? ? ? ? h info' ps' SEP F2 NB PT]; subst. clear B. cbn [diagram info] in *.
    rewrite all_variables_eq in *. rewrite !Forall_app in *. destruct G as [G1 [G2 G3]]. split; [|split].
    + rewrite (variables_map d WF h SEP), Forall_forall, map_map. intros x I. apply in_map_iff in I. destruct I as [v [<- I]].
      intros L. rewrite (relabel_agree d h k WF Dk v I) in *. apply K; auto.
    + destruct (existsb _ _); repeat constructor. discriminate.
    + rewrite Forall_forall. intros x I. apply flat_map_nth in I. destruct I as [j [p' [Np' I]]].
      assert (LP' : length ps' = length ps) by (symmetry; eapply Forall2_len; eauto).
      destruct (nth_len ps' ps j p' (eq_sym LP') Np') as [p Np].
      apply all2_nth in AF. destruct AF as [LP AF]. destruct (nth_len ps (blocks d) j p (eq_sym LP) Np) as [b Nb].
      rewrite Forall_forall in F.
      assert (Q : Forall good (part_variables p')).
      { apply (F p (nth_error_In _ _ Np) (fits_sound params text p b (AF j p b Np Nb))); [|exact (Forall2_nth _ _ _ F2 j p p' Np Np')].
        rewrite Forall_forall in G3 |- *. intros y Iy. apply G3. apply flat_map_nth. eauto. }
      rewrite Forall_forall in Q. auto.
  - intros c n q _ _ p' B. inversion B; subst. constructor.
  - intros w n q IH S0 G p' B. inversion B as [|? w' ? ? BW|]; subst. exact (IH S0 G w' BW).
  - intros w i o bn bp k n q IH S0 G p' B.
    inversion B as [| |? w' ? ? ins2 outs2 i' o' ? ? ? ? ? BW C' P1 P2]; subst.
    change (Forall good (i ++ o ++ all_variables w)) in G. change (Forall good (i' ++ o' ++ all_variables w')).
    rewrite !Forall_app in *. destruct G as [G1 [G2 G3]]. split; [eapply ports_good; eauto|]. split; [eapply ports_good; eauto|]. eauto.
Qed.

(** ** Values *)
Lemma same_given w w' : sound w -> back true w w' -> (forall p, In p (parts w) -> deprecated p = false) ->
  exists h, separates h (diagram w) /\ diagram w' = relabel h (diagram w)
   /\ forall v, In v (variables (diagram w)) -> v_default (info w' (h v)) = v_default (info w v)
      /\ v_lock (info w' (h v)) = (if mem v (nonblock_variables (diagram w)) then false else v_lock (info w v)).
Proof.
  intros S0 B D. destruct B as [d inf ps ss det descr doc n h info' ps' SEP F2 NB PT]. rewrite sound_eq in S0. destruct S0 as [WF [AF SS]].
  exists h. cbn [diagram info parts] in *. split; auto. split; auto. intros v I. apply (in_variables d WF) in I. destruct I as [I|I].
  2:{ rewrite NB by auto. split; [reflexivity|]. destruct (mem v (nonblock_variables d)) eqn:M; [reflexivity|]. apply mem_false in M. contradiction. }
  assert (M : mem v (nonblock_variables d) = false).
  { apply mem_false. intros N. apply (nbv_In d WF) in N. tauto. }
  rewrite M. apply in_block_variables in I. destruct I as [b [Ib Iv]]. destruct (In_nth_error _ _ Ib) as [j Nb].
  apply all2_nth in AF. destruct AF as [LP AF]. assert (LP' : length ps' = length ps) by (symmetry; eapply Forall2_len; eauto).
  destruct (nth_len (blocks d) ps j b LP Nb) as [p Np]. destruct (nth_len ps ps' j p LP' Np) as [p' Np'].
  destruct (PT j b p' Nb Np') as [ins [outs [C [P1 P2]]]].
  assert (D' : deprecated p' = false).
  { specialize (D p (nth_error_In _ _ Np)). pose proof (Forall2_nth _ _ _ F2 j p p' Np Np') as Q. destruct Q; auto. }
  rewrite D' in *.
  assert (G : forall vs ys, ports_back true false (map inf vs) ys (map (fun v => info' (h v)) vs) -> In v vs ->
    v_default (info' (h v)) = v_default (inf v) /\ v_lock (info' (h v)) = v_lock (inf v)).
  { intros vs ys PB Ivs. destruct (In_nth_error _ _ Ivs) as [k Nk]. destruct (ports_length _ _ _ _ _ PB) as [L1 _]. rewrite map_length in L1.
    destruct (nth_len vs ys k v L1 Nk) as [y Ny].
    pose proof (ports_nth _ _ _ _ _ PB k (inf v) y (info' (h v)) (map_nth_error inf k vs Nk) Ny
                  (map_nth_error (fun v => info' (h v)) k vs Nk)) as Z. unfold port_back in Z. rewrite Z. auto. }
  destruct Iv as [Iv|Iv]; eauto.
Qed.

Lemma find_relabel d h (user : list (nat * V)) v : well_formed d -> separates h d -> In v (variables d) ->
  find (fun ix => match nth_error (inputs (relabel h d)) (fst ix) with Some u => Nat.eqb u (h v) | None => false end) user
  = find (fun ix => match nth_error (inputs d) (fst ix) with Some u => Nat.eqb u v | None => false end) user.
Proof.
  intros WF SEP I. rewrite (inputs_map d WF h SEP). induction user as [|[i x] user IH]; [reflexivity|]. cbn [find fst].
  rewrite nth_error_map. destruct (nth_error (inputs d) i) as [u|] eqn:N; cbn [option_map]; [|exact IH].
  assert (Iu : In u (variables d)) by (apply nth_error_In in N; unfold inputs in N; apply filter_In in N; tauto).
  destruct (Nat.eqb_spec u v) as [->|NE].
  - rewrite Nat.eqb_refl. reflexivity.
  - destruct (Nat.eqb_spec (h u) (h v)) as [E|_]; [exfalso; apply NE; auto|exact IH].
Qed.
End Restore.

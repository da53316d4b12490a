(** A saved workflow comes back: the induction on nested workflows. *)
From Coq Require Import ZArith Bool String Ascii Arith Lia List.
From Verif Require Import Base BaseProofs ExecModel ExecSpec ExecStruct WiringModel WiringSpec WiringProofs VariablesModel ScriptModel ScriptSpec SavedModel SavedSpec SavedProofs SavedBack.
Import ListNotations.
Open Scope string_scope.
Open Scope list_scope.

(** ** Induction *)
Section Ind.
Context {V : Type}.
Variable P : wf V -> Prop.
Variable Q : part V -> Prop.
Hypothesis HW : forall d i ps ss det descr doc n, Forall Q ps -> P (Wf d i ps ss det descr doc n).
Hypothesis HC : forall c n p, Q (Part (KConf c) n p).
Hypothesis HB : forall w n p, P w -> Q (Part (KWorkflow w) n p).
Hypothesis HE : forall w i o bn bp k n p, P w -> Q (Part (KForEach w i o bn bp k) n p).
Fixpoint wf_all (w : wf V) : P w :=
  match w with
  | Wf d i ps ss det descr doc n =>
      HW d i ps ss det descr doc n
        ((fix go l : Forall Q l := match l with [] => Forall_nil _ | p :: r => Forall_cons p (part_all p) (go r) end) ps)
  end
with part_all (p : part V) : Q p :=
  match p with
  | Part k n pos =>
    match k with
    | KConf c => HC c n pos
    | KWorkflow w => HB w n pos (wf_all w)
    | KForEach w i o bn bp it => HE w i o bn bp it n pos (wf_all w)
    end
  end.
End Ind.

Section Main.
Context {V J : Type}.
Notation variable := (variable V tag).
Notation wf := (wf V).
Notation part := (part V).
Notation wdict := (wdict J).
Variable params : cls -> string -> list (VariablesModel.variable V string).
Variable text : string -> V.
Variable ser : V -> res J.
Variable des : J -> res V.
Hypothesis UP : unlocked_params params.
Notation conf_ports := (conf_ports params text).
Notation constructed := (constructed params text).
Notation sound := (sound params text).
Notation fits := (fits params text).
Notation back := (back params text).
Notation part_back := (part_back params text).
Notation recovered := (recovered ser des).
Notation writable := (writable ser).
Notation write_var := (write_var ser).
Notation write_wf := (write_wf ser).
Notation write_part := (write_part ser).
Notation read_wf := (read_wf params text des).
Notation read_block := (read_block params text des).
Notation update := (update des).
Notation update_all := (update_all des).
Notation deserialize_variables := (deserialize_variables des).
Notation read_nbv := (read_nbv des).

Lemma conf_unlocked c y : In y (fst (conf_ports c) ++ snd (conf_ports c)) -> v_lock y = false.
Proof.
  unfold SavedModel.conf_ports. cbn [fst snd]. rewrite <- map_app. intros I. apply in_map_iff in I. destruct I as [x [<- I]].
  cbn [fresh v_lock]. apply in_app_or in I. destruct c; simpl in I;
  repeat match goal with
  | H : _ \/ _ |- _ => destruct H
  | H : False |- _ => destruct H
  | H : In _ (map _ _) |- _ => apply in_map_iff in H; destruct H as [? [? _]]
  | H : In _ (_ ++ _) |- _ => apply in_app_or in H; simpl in H
  | H : In _ (params _ _) |- _ => apply UP in H
  end; subst; auto.
Qed.

(** ** Variables *)
Lemma write_var_iff x : (exists c, write_var x = Ok c) <-> writable x.
Proof.
  unfold SavedModel.write_var, SavedSpec.writable, is_locked. destruct x as [dv l t]. cbn [v_lock v_default v_label]. split.
  - intros [c E]. split.
    + intros ->. destruct dv; [discriminate|]. discriminate E.
    + intros v ->. destruct l; cbn [bind] in E; destruct (ser v) as [j|]; eauto; discriminate.
  - intros [A B]. destruct l.
    + destruct dv as [v|]; [|exfalso; apply A; auto]. cbn [bind]. destruct (B v eq_refl) as [j ->]. cbn [bind]. eauto.
    + cbn [bind]. destruct dv as [v|]; [destruct (B v eq_refl) as [j ->]|]; cbn [bind]; eauto.
Qed.

Lemma recovered_incl l m : incl l m -> recovered m -> recovered l.
Proof. intros I R x v j Ix. apply R. auto. Qed.

Lemma default_back x c : write_var x = Ok c -> recovered [x] ->
  c = mkVd (t_name (v_label x)) (t_label (v_label x)) (t_pos (v_label x)) (v_lock x) (vd_default c)
  /\ read_default des (vd_default c) = Ok (v_default x) /\ (v_lock x = true -> v_default x <> None).
Proof.
  intros E R. unfold SavedModel.write_var in E. destruct (is_locked x) as [l|] eqn:L; [|discriminate]. cbn [bind] in E.
  unfold is_locked in L.
  assert (A : l = v_lock x /\ (v_lock x = true -> v_default x <> None)).
  { destruct (v_lock x), (v_default x); inversion L; split; auto; discriminate. }
  destruct A as [-> A]. destruct (v_default x) as [v|] eqn:D.
  - destruct (ser v) as [j|] eqn:S0; [|discriminate]. cbn [bind] in E. inversion E; subst c. cbn [vd_default]. split; auto. split; auto.
    cbn [read_default]. rewrite (R x v j (or_introl eq_refl) D S0). reflexivity.
  - cbn [bind] in E. inversion E; subst c. split; auto.
Qed.

Lemma update_back x c y : write_var x = Ok c -> recovered [x] ->
  update y c = Ok (mkVar (v_default x) (v_lock x || v_lock y) (mkTag (t_name (v_label y)) (t_label (v_label x)) (t_pos (v_label y)))).
Proof.
  intros E R. destruct (default_back x c E R) as [C [D L]]. unfold SavedModel.update. rewrite D. cbn [bind]. rewrite C.
  cbn [vd_label vd_locked]. unfold update_from_config, lock. cbn [v_default v_lock v_label]. destruct (v_lock x).
  - destruct (v_default x); [reflexivity|]. exfalso. apply L; auto.
  - reflexivity.
Qed.

Lemma nbvs_back xs : forall cs, mapM write_var xs = Ok cs -> recovered xs -> mapM read_nbv cs = Ok (map nbv_back xs).
Proof.
  induction xs as [|x xs IH]; intros cs E R; cbn [mapM] in E; [inversion E; reflexivity|].
  destruct (write_var x) as [c|] eqn:W; [|discriminate]. cbn [bind] in E.
  destruct (mapM write_var xs) as [r|] eqn:M; [|discriminate]. cbn [bind] in E. inversion E; subst cs. cbn [mapM map].
  rewrite (IH r eq_refl) by (eapply recovered_incl; [|exact R]; intros a I; simpl; auto).
  destruct (default_back x c W) as [C [D L]]; [eapply recovered_incl; [|exact R]; intros a [<-|[]]; simpl; auto|].
  unfold SavedModel.read_nbv at 1. rewrite D. cbn [bind]. rewrite C. cbn [vd_name vd_label vd_pos]. unfold nbv_back. destruct x as [dv l [a b e]]. reflexivity.
Qed.

Lemma ports_length exact old (xs ys zs : list variable) : ports_back exact old xs ys zs -> length ys = length xs /\ length zs = length xs.
Proof. intros H. induction H; simpl; auto. destruct IHports_back. auto. Qed.

Lemma update_all_back xs : forall cs ys, mapM write_var xs = Ok cs -> recovered xs -> length ys = length xs ->
  exists zs, update_all ys cs = Ok zs /\ ports_back false false xs ys zs.
Proof.
  induction xs as [|x xs IH]; intros cs ys E R L; cbn [mapM] in E.
  - inversion E; subst. destruct ys; [|discriminate]. exists []. split; [reflexivity|constructor].
  - destruct ys as [|y ys]; [discriminate|].
    destruct (write_var x) as [c|] eqn:W; [|discriminate]. cbn [bind] in E.
    destruct (mapM write_var xs) as [r|] eqn:M; [|discriminate]. cbn [bind] in E. inversion E; subst cs.
    destruct (IH r ys eq_refl) as [zs [A B]]; [eapply recovered_incl; [|exact R]; intros a I; simpl; auto|simpl in L; lia|].
    cbn [SavedModel.update_all]. rewrite (update_back x c y W) by (eapply recovered_incl; [|exact R]; intros a [<-|[]]; simpl; auto).
    cbn [bind]. rewrite A. cbn [bind]. eexists. split; [reflexivity|]. constructor; [reflexivity|exact B].
Qed.

Lemma exact_ports (xs : list variable) : forall ys zs, ports_back false false xs ys zs ->
  (forall k x y, nth_error xs k = Some x -> nth_error ys k = Some y -> v_lock y = true -> v_lock x = true) ->
  ports_back true false xs ys zs.
Proof.
  intros ys zs H. induction H as [|x y z xs ys zs B H IH]; intros L; [constructor|].
  apply ports_cons; [|apply IH; intros k; apply (L (S k))].
  unfold port_back in *. rewrite B. specialize (L 0 x y eq_refl eq_refl).
  f_equal. destruct (v_lock x), (v_lock y); auto. discriminate (L eq_refl).
Qed.

Lemma old_ports exact (xs ys : list variable) : length ys = length xs -> ports_back exact true xs ys ys.
Proof.
  revert ys. induction xs as [|x xs IH]; intros [|y ys] L; try discriminate; constructor; [reflexivity|]. apply IH. simpl in L. lia.
Qed.

Lemma deserialize_back exact xs ys i o (io : list variable * list variable) :
  mapM write_var xs = Ok i -> mapM write_var ys = Ok o -> recovered (xs ++ ys) ->
  length (fst io) = length xs -> length (snd io) = length ys ->
  (exact = true -> forall k x y, nth_error xs k = Some x -> nth_error (fst io) k = Some y -> v_lock y = true -> v_lock x = true) ->
  (exact = true -> forall k x y, nth_error ys k = Some x -> nth_error (snd io) k = Some y -> v_lock y = true -> v_lock x = true) ->
  exists io', deserialize_variables io i o = Ok io' /\ ports_back exact false xs (fst io) (fst io')
              /\ ports_back exact false ys (snd io) (snd io').
Proof.
  intros E1 E2 R L1 L2 X1 X2.
  destruct (update_all_back xs i (fst io) E1) as [zs [A1 B1]]; auto; [eapply recovered_incl; [|exact R]; apply incl_appl, incl_refl|].
  destruct (update_all_back ys o (snd io) E2) as [us [A2 B2]]; auto; [eapply recovered_incl; [|exact R]; apply incl_appr, incl_refl|].
  unfold SavedModel.deserialize_variables. rewrite A1. cbn [bind]. rewrite A2. cbn [bind]. exists (zs, us). split; [reflexivity|]. cbn [fst snd].
  destruct exact; auto. split; (apply exact_ports; [assumption|]); [exact (X1 eq_refl)|exact (X2 eq_refl)].
Qed.

Lemma copy_ok n (x : variable) : (v_lock x = true -> v_default x <> None) ->
  copy_as n x = Ok (mkVar (v_default x) (v_lock x) (mkTag n "" (0, 0)%Z)).
Proof.
  intros G. unfold copy_as, copy, is_locked. destruct x as [dv l nm]. simpl in *. destruct l; cbn [bind].
  - destruct dv; [reflexivity|]. exfalso. apply G; auto.
  - reflexivity.
Qed.
Lemma copy_lock n (x y : variable) : copy_as n x = Ok y -> v_lock y = v_lock x.
Proof.
  unfold copy_as, copy, is_locked. destruct x as [dv l nm]. simpl in *. destruct l; cbn [bind].
  - destruct dv; intros H; inversion H; reflexivity.
  - intros H; inversion H; reflexivity.
Qed.

Lemma enumerate_at {A} (l : list A) k x : nth_error l k = Some x -> nth_error (enumerate l) k = Some (k, x).
Proof.
  unfold enumerate. intros N.
  assert (G : forall (l : list A) s k x, nth_error l k = Some x -> nth_error (combine (seq s (length l)) l) k = Some (s + k, x)).
  { clear. induction l as [|a l IH]; intros s [|k] x N; simpl in *; try discriminate.
    - inversion N. rewrite Nat.add_0_r. reflexivity.
    - rewrite (IH (S s) k x N). f_equal. f_equal. lia. }
  exact (G l 0 k x N).
Qed.

(** ** Locks of what comes back *)
Lemma ports_nth exact old (xs ys zs : list variable) : ports_back exact old xs ys zs -> forall k x y z,
  nth_error xs k = Some x -> nth_error ys k = Some y -> nth_error zs k = Some z -> port_back exact old x y z.
Proof.
  intros H. induction H as [|x y z xs ys zs B H IH]; intros [|k] a b c; simpl; intros X Y Z; try discriminate; eauto.
  inversion X; inversion Y; inversion Z; subst; auto.
Qed.

Lemma nth_len {A B} (l : list A) (m : list B) k a : length m = length l -> nth_error l k = Some a -> exists b, nth_error m k = Some b.
Proof.
  intros L N. destruct (nth_error m k) eqn:E; eauto. apply nth_error_None in E.
  assert (k < length l) by (apply nth_error_Some; congruence). lia.
Qed.

Lemma Forall2_len {A B} (R : A -> B -> Prop) l m : Forall2 R l m -> length l = length m.
Proof. intros F. induction F; simpl; congruence. Qed.

Lemma deprecated_conf (p : part) : deprecated p = true -> exists c n q, p = Part (KConf c) n q.
Proof. destruct p as [[c|w|w i o bn bp k] n q]; simpl; try discriminate. eauto. Qed.

Lemma back_locks w w' : sound w -> back true w w' -> Forall (fun x => v_lock x = true -> v_default x <> None) (all_variables w) ->
  exists h, separates h (diagram w) /\ diagram w' = relabel h (diagram w)
   /\ forall v, In v (variables (diagram w)) ->
        v_lock (info w' (h v)) = true -> v_lock (info w v) = true /\ v_default (info w' (h v)) <> None.
Proof.
  intros S0 B G. destruct B as [d inf ps ss det descr doc name h info' ps' SEP F NB PT]. exists h.
  cbn [diagram info]. split; auto. split; auto. intros v I L. destruct S0 as [WF [AF _]].
  assert (GV : v_lock (inf v) = true -> v_default (inf v) <> None).
  { rewrite Forall_forall in G. apply G. cbn [all_variables]. apply in_or_app. left. apply in_map. auto. }
  apply (in_variables d WF) in I. destruct I as [I|I].
  2:{ rewrite NB in L by auto. discriminate. }
  apply in_block_variables in I. destruct I as [b [Ib Iv]].
  destruct (In_nth_error _ _ Ib) as [j Nj].
  assert (exists p', nth_error ps' j = Some p') as [p' Np].
  { apply (nth_len (blocks d) ps' j b); auto. rewrite <- (Forall2_len _ _ _ F). apply all2_nth in AF. lia. }
  destruct (PT j b p' Nj Np) as [ins [outs [C [P1 P2]]]].
  assert (CASE : forall vs ys, ports_back true (deprecated p') (map inf vs) ys (map (fun v => info' (h v)) vs) ->
     (deprecated p' = true -> forall y, In y ys -> v_lock y = false) -> In v vs ->
     v_lock (inf v) = true /\ v_default (info' (h v)) <> None).
  { intros vs ys PB OLD Iin. destruct (In_nth_error _ _ Iin) as [k Nk].
    destruct (ports_length _ _ _ _ _ PB) as [L1 _]. rewrite map_length in L1.
    destruct (nth_len vs ys k v L1 Nk) as [y Ny].
    pose proof (ports_nth _ _ _ _ _ PB k (inf v) y (info' (h v)) (map_nth_error inf k vs Nk) Ny
                  (map_nth_error (fun v => info' (h v)) k vs Nk)) as Z.
    unfold port_back in Z. destruct (deprecated p') eqn:O.
    - rewrite Z in L. rewrite (OLD eq_refl y) in L by (eapply nth_error_In; eauto). discriminate.
    - rewrite Z in L |- *. cbn [v_lock v_default] in *. auto. }
  assert (OLD : deprecated p' = true -> forall y, In y (ins ++ outs) -> v_lock y = false).
  { intros O y Iy. apply deprecated_conf in O. destruct O as [c [n [q ->]]]. cbn [SavedSpec.constructed] in C.
    apply (conf_unlocked c). assert (C' : conf_ports c = (ins, outs)) by congruence. rewrite C'. exact Iy. }
  destruct Iv as [Iv|Iv]; [apply (CASE (b_in b) ins)|apply (CASE (b_out b) outs)]; auto; intros O y Iy; apply OLD; auto; apply in_or_app; auto.
Qed.

(** ** Nested workflows *)
Lemma wfblock_back exact w w' n xs ys i o :
  sound w -> back exact w w' -> output (diagram w) <> None ->
  length xs = length (inputs (diagram w)) -> length ys = 1 ->
  mapM write_var xs = Ok i -> mapM write_var ys = Ok o -> recovered (xs ++ ys) ->
  (if exact then Forall (fun x => v_lock x = true -> v_default x <> None) (all_variables w)
     /\ all2 (fun v x => v_lock (info w v) = true -> v_lock x = true) (inputs (diagram w)) xs
     /\ (forall o x, output (diagram w) = Some o -> In x ys -> v_lock (info w o) = true -> v_lock x = true)
   else exists io, wfblock_ports w' n = Ok io) ->
  exists io io', wfblock_ports w' n = Ok io /\ deserialize_variables io i o = Ok io'
    /\ ports_back exact false xs (fst io) (fst io') /\ ports_back exact false ys (snd io) (snd io').
Proof.
  intros S0 B O L1 L2 E1 E2 R H.
  assert (WF : well_formed (diagram w)) by (destruct w; apply S0).
  assert (exists h, separates h (diagram w) /\ diagram w' = relabel h (diagram w)) as [h [SEP D]].
  { destruct B. eauto. }
  assert (EX : exists io, wfblock_ports w' n = Ok io).
  { destruct exact; [|exact H]. destruct H as [G _]. clear h SEP D. destruct (back_locks w w' S0 B G) as [h [SEP [D K]]].
    unfold wfblock_ports. rewrite D. rewrite (inputs_map (diagram w) WF h SEP).
    match goal with |- exists io, bind (mapM ?f ?l) _ = _ => destruct (mapM_ok_all f l) as [r Er] end.
    { intros a I. apply in_map_iff in I. destruct I as [v [<- I]]. eexists. apply copy_ok. intros Lk. apply K; auto.
      unfold inputs in I. apply filter_In in I. tauto. }
    rewrite Er. cbn [bind]. cbn [relabel output]. destruct (output (diagram w)) as [v|] eqn:Ov; [|congruence]. cbn [option_map of_option bind].
    rewrite copy_ok; [cbn [bind]; eauto|]. intros Lk. apply K; auto.
    destruct (wf_output _ WF v Ov) as [b [Ib Iv]]. apply (in_variables _ WF). left. apply in_block_variables. eauto. }
  destruct EX as [io Eio]. exists io.
  pose proof Eio as E. unfold wfblock_ports in E. rewrite D, (inputs_map (diagram w) WF h SEP) in E.
  match type of E with bind (mapM ?f ?l) _ = _ => destruct (mapM f l) as [r|] eqn:Er; [|discriminate] end. cbn [bind] in E.
  cbn [relabel output] in E. destruct (output (diagram w)) as [v|] eqn:Ov; [|congruence]. cbn [option_map of_option bind] in E.
  destruct (copy_as _ _) as [y|] eqn:Cy in E; [|discriminate]. cbn [bind] in E. inversion E; subst io. cbn [fst snd] in *.
  apply mapM_nth in Er. rewrite map_length in Er. destruct Er as [Lr Er].
  destruct (deserialize_back exact xs ys i o (r, [y]) E1 E2 R) as [io' [Ed [B1 B2]]]; cbn [fst snd]; auto; try congruence.
  - intros ->. destruct H as [G [H1 H2]]. destruct (back_locks w w' S0 B G) as [h2 [SEP2 [D2 K]]].
    assert (Eh : inputs (diagram w') = map h (inputs (diagram w))) by (rewrite D; apply (inputs_map (diagram w) WF h SEP)).
    assert (Eh2 : inputs (diagram w') = map h2 (inputs (diagram w))) by (rewrite D2; apply (inputs_map (diagram w) WF h2 SEP2)).
    intros k x z Nx Nz Lz. apply all2_nth in H1. destruct H1 as [Li H1].
    destruct (nth_len xs (inputs (diagram w)) k x) as [u Nu]; [congruence|auto|].
    apply (H1 k u x Nu Nx). apply (K u).
    + apply nth_error_In in Nu. unfold inputs in Nu. apply filter_In in Nu. tauto.
    + rewrite Eh in Eh2. pose proof (map_nth_error h2 k _ Nu) as N2. rewrite <- Eh2 in N2.
      destruct (Er k (h2 u) N2) as [c [Nc Ec]]. rewrite Nz in Nc. inversion Nc; subst c.
      apply copy_lock in Ec. rewrite <- Ec. exact Lz.
  - intros ->. destruct H as [G [H1 H2]]. destruct (back_locks w w' S0 B G) as [h2 [SEP2 [D2 K]]].
    assert (Eh : output (diagram w') = Some (h v)) by (rewrite D; cbn [relabel output]; rewrite Ov; reflexivity).
    assert (Eh2 : output (diagram w') = Some (h2 v)) by (rewrite D2; cbn [relabel output]; rewrite Ov; reflexivity).
    intros [|k] x z Nx Nz Lz; [|destruct k; discriminate]. simpl in Nz. inversion Nz; subst z.
    apply (H2 v x eq_refl); [eapply nth_error_In; eauto|]. apply (K v).
    + destruct (wf_output _ WF v Ov) as [b [Ib Iv]]. apply (in_variables _ WF). left. apply in_block_variables. eauto.
    + assert (Q : h2 v = h v) by congruence. rewrite Q. apply copy_lock in Cy. rewrite <- Cy. exact Lz.
  - exists io'. auto.
Qed.

Lemma foreach_inv ins k io : foreach_ports ins k = Ok io -> length (fst io) = length ins /\ length (snd io) = 1
  /\ (forall y, In y (snd io) -> v_lock y = false)
  /\ forall j x y, nth_error ins j = Some x -> nth_error (fst io) j = Some y -> v_lock y = true -> j <> k /\ @v_lock V tag x = true.
Proof.
  unfold foreach_ports. destruct (nth_error ins k) eqn:N; [|discriminate]. cbn [of_option bind].
  destruct (mapM _ (enumerate ins)) as [l|] eqn:M; [|discriminate]. cbn [bind]. intros E. inversion E; subst io. cbn [fst snd].
  apply mapM_nth in M. destruct M as [L M].
  assert (LE : length (enumerate ins) = length ins) by (unfold enumerate; rewrite combine_length, seq_length; lia).
  split; [congruence|]. split; [reflexivity|]. split; [intros y [<-|[]]; reflexivity|].
  intros j x y Nx Ny Ly.
  assert (NE : nth_error (enumerate ins) j = Some (j, x)).
  { apply enumerate_at. exact Nx. }
  destruct (M j (j, x) NE) as [c [Nc Ec]]. rewrite Ny in Nc. inversion Nc; subst c. cbn [fst snd] in Ec.
  destruct (Nat.eqb_spec j k) as [->|D].
  - inversion Ec; subst y. discriminate.
  - split; auto. apply copy_lock in Ec. congruence.
Qed.
Lemma foreach_ok ins k : k < length ins -> Forall (fun x => v_lock x = true -> @v_default V tag x <> None) ins -> exists io, foreach_ports ins k = Ok io.
Proof.
  intros L G. unfold foreach_ports. destruct (nth_error ins k) eqn:N; [|apply nth_error_None in N; lia]. cbn [of_option bind].
  match goal with |- exists io, bind (mapM ?f ?l) _ = _ => destruct (mapM_ok_all f l) as [r Er] end.
  { intros [j x] I. cbn [fst snd]. destruct (Nat.eqb j k); eauto. eexists. apply copy_ok. rewrite Forall_forall in G. apply G.
    apply enumerate_In in I. eapply nth_error_In; eauto. }
  rewrite Er. cbn [bind]. eauto.
Qed.

(** ** Writing *)
Lemma write_wf_eq d inf ps ss det descr doc n : write_wf (Wf d inf ps ss det descr doc n) =
    let* bs := map2M (fun p b => write_part p (map inf (b_in b)) (map inf (b_out b))) ps (blocks d) in
    let* pp := serialized_pipes d in
    let* o := serialized_output d in
    let* nb := mapM write_var (map inf (nonblock_variables d) ++ det) in
    let* s := mapM (write_step d) ss in
    Ok (WDict bs pp o nb s descr doc n).
Proof. reflexivity. Qed.
Lemma write_conf_eq c n p ins outs : write_part (Part (KConf c) n p) ins outs =
    let* i := mapM write_var ins in let* o := mapM write_var outs in
    Ok (BDict (write_conf c (length ins) n p) i o NNone).
Proof. reflexivity. Qed.
Lemma write_workflow_eq w n p ins outs : write_part (Part (KWorkflow w) n p) ins outs =
    let* i := mapM write_var ins in let* o := mapM write_var outs in
    let* x := write_wf w in Ok (BDict (base "WorkflowBlock" n p) i o (NWorkflow x)).
Proof. reflexivity. Qed.
Lemma write_foreach_eq w bi bo bn bp k n p ins outs : write_part (Part (KForEach w bi bo bn bp k) n p) ins outs =
    let* i := mapM write_var ins in let* o := mapM write_var outs in
    let* x := write_wf w in let* xi := mapM write_var bi in let* xo := mapM write_var bo in
    Ok (BDict (base "ForEach" n p ++ [("iter_input_index", JInt (Z.of_nat k))]) i o
              (NBlock (BDict (base "WorkflowBlock" bn bp) xi xo (NWorkflow x)))).
Proof. reflexivity. Qed.
Lemma read_conf_eq f ins outs : read_block (BDict f ins outs NNone) =
        let* cn := read_conf f in
        let* pos := pos_at "position" f in
        let c := fst (fst cn) in
        let* io := if snd cn then deserialize_variables (conf_ports c) ins outs else Ok (conf_ports c) in
        Ok (Part (KConf c) (snd (fst cn)) pos, io).
Proof. reflexivity. Qed.
Lemma read_workflow_eq f ins outs x : read_block (BDict f ins outs (NWorkflow x)) =
        let* c := class_at "object_class" f in
        if cls_eqb c (in_blocks "WorkflowBlock") then
          let* w := read_wf x in
          let* n := text_at "name" f in
          let* pos := pos_at "position" f in
          let* io := wfblock_ports w n in
          let* io' := deserialize_variables io ins outs in
          Ok (Part (KWorkflow w) n pos, io')
        else Err TypeError.
Proof. reflexivity. Qed.
Lemma read_foreach_eq f ins outs bf bi bo x : read_block (BDict f ins outs (NBlock (BDict bf bi bo (NWorkflow x)))) =
        let* c := class_at "object_class" f in
        if cls_eqb c (in_blocks "ForEach") then
          let* w := read_wf x in
          let* bn := text_at "name" bf in
          let* bp := pos_at "position" bf in
          let* bio := wfblock_ports w bn in
          let* bio' := deserialize_variables bio bi bo in
          let* i := nat_at "iter_input_index" f in
          let* n := text_at "name" f in
          let* pos := pos_at "position" f in
          let* io := foreach_ports (fst bio') i in
          let* io' := deserialize_variables io ins outs in
          Ok (Part (KForEach w (fst bio') (snd bio') bn bp i) n pos, io')
        else Err TypeError.
Proof. reflexivity. Qed.
Lemma read_wf_eq bs ps o nb ss descr doc n : read_wf (WDict bs ps o nb ss descr doc n) =
    let* l := map1M read_block bs in
    let* vs := mapM read_nbv nb in
    assemble l vs ps o ss descr doc n.
Proof. reflexivity. Qed.
Lemma sound_eq d inf ps ss det descr doc n : sound (Wf d inf ps ss det descr doc n) =
      (well_formed d /\ all2 fits ps (blocks d)
      /\ (forall s, In s ss -> incl (st_inputs s) (variables d) /\ incl (st_group_inputs s) (variables d))).
Proof. reflexivity. Qed.
Lemma all_variables_eq d inf ps ss det descr doc n : all_variables (Wf d inf ps ss det descr doc n : wf) =
  map inf (variables d) ++ det ++ flat_map part_variables ps.
Proof. reflexivity. Qed.

Lemma vars_written xs : (exists c, mapM write_var xs = Ok c) <-> Forall writable xs.
Proof.
  rewrite Forall_forall. split.
  - intros [c E] x I. apply write_var_iff. eapply mapM_all; eauto.
  - intros H. apply mapM_ok_all. intros x I. apply write_var_iff. auto.
Qed.

Lemma serialized_ok d : well_formed d -> exists ps o, serialized_pipes d = Ok ps /\ serialized_output d = Ok o.
Proof.
  intros WF. pose proof (rebuild_ok d WF (fun v => v)) as R. unfold rebuild in R.
  destruct (serialized_pipes d) as [ps|]; [|discriminate]. cbn [bind] in R.
  destruct (serialized_output d) as [o|]; [|discriminate]. eauto.
Qed.
Lemma indices_ok d l : well_formed d -> incl l (variables d) -> exists a, mapM (variable_indices d) l = Ok a.
Proof.
  intros WF I. apply mapM_ok_all. intros v Iv. destruct (indices_exists d WF v (I v Iv)) as [a [A _]]. eauto.
Qed.
Lemma steps_ok d ss : well_formed d ->
  (forall s, In s ss -> incl (st_inputs s) (variables d) /\ incl (st_group_inputs s) (variables d)) ->
  exists sd, mapM (write_step d) ss = Ok sd.
Proof.
  intros WF I. apply mapM_ok_all. intros s Is. destruct (I s Is) as [A B]. unfold write_step.
  destruct (indices_ok d _ WF A) as [a ->]. destruct (indices_ok d _ WF B) as [b ->]. cbn [bind]. eauto.
Qed.

Definition part_sound (p : part) : Prop :=
  match p with
  | Part (KConf _) _ _ => True
  | Part (KWorkflow w) _ _ => sound w
  | Part (KForEach w _ _ _ _ _) _ _ => sound w
  end.
Lemma fits_sound p b : fits p b -> part_sound p.
Proof. destruct p as [[c|w|w i o bn bp k] n q]; intros H; [exact I|exact (proj1 H)|exact (proj1 H)]. Qed.

Lemma flat_map_nth {A B} (f : A -> list B) l x : In x (flat_map f l) <-> exists i a, nth_error l i = Some a /\ In x (f a).
Proof.
  rewrite in_flat_map. split.
  - intros [a [I J0]]. destruct (In_nth_error _ _ I) as [i N]. eauto.
  - intros [i [a [N J0]]]. exists a. split; auto. eapply nth_error_In; eauto.
Qed.

Lemma write_iff : forall w : wf, sound w -> ((exists j, write_wf w = Ok j) <-> Forall writable (all_variables w)).
Proof.
  apply (wf_all (fun w => sound w -> ((exists j, write_wf w = Ok j) <-> Forall writable (all_variables w)))
                (fun p => part_sound p -> forall ins outs, (exists j, write_part p ins outs = Ok j) <-> Forall writable (ins ++ outs ++ part_variables p))).
  - intros d inf ps ss det descr doc n F S0. rewrite sound_eq in S0. destruct S0 as [WF [AF SS]]. rewrite write_wf_eq, all_variables_eq.
    rewrite (variables_split d WF), map_app. apply all2_nth in AF. destruct AF as [LP AF].
    destruct (serialized_ok d WF) as [pp [o [Ep Eo]]]. rewrite Ep, Eo.
    destruct (steps_ok d ss WF SS) as [sd Es]. rewrite Es. cbn [bind].
    rewrite Forall_forall in F.
    assert (B : (exists bs, map2M (fun p b => write_part p (map inf (b_in b)) (map inf (b_out b))) ps (blocks d) = Ok bs) <->
      Forall writable (map inf (block_variables d) ++ flat_map part_variables ps)).
    { rewrite Forall_forall. split.
      - intros [bs E] x I. destruct (map2M_inv _ _ _ _ LP E) as [_ H].
        assert (G : forall i p b, nth_error ps i = Some p -> nth_error (blocks d) i = Some b ->
                    Forall writable (map inf (b_in b) ++ map inf (b_out b) ++ part_variables p)).
        { intros i p b Np Nb. destruct (H i p b Np Nb) as [c [_ Ec]]. exact (proj1 (F p (nth_error_In _ _ Np) (fits_sound p b (AF i p b Np Nb)) _ _) (ex_intro _ c Ec)). }
        apply in_app_or in I. destruct I as [I|I].
        + apply in_map_iff in I. destruct I as [v [<- I]]. apply in_block_variables in I. destruct I as [b [Ib Iv]].
          destruct (In_nth_error _ _ Ib) as [i Nb]. destruct (nth_len (blocks d) ps i b LP Nb) as [p Np].
          specialize (G i p b Np Nb). rewrite Forall_forall in G. apply G. rewrite !in_app_iff.
          destruct Iv; [left|right; left]; apply in_map; auto.
        + apply flat_map_nth in I. destruct I as [i [p [Np I]]].
          destruct (nth_len ps (blocks d) i p (eq_sym LP) Np) as [b Nb].
          specialize (G i p b Np Nb). rewrite Forall_forall in G. apply G. rewrite !in_app_iff. auto.
      - intros G. apply map2M_ok. intros i p b Np Nb.
        apply (proj2 (F p (nth_error_In _ _ Np) (fits_sound p b (AF i p b Np Nb)) _ _)). rewrite Forall_forall. intros x I. apply G.
        rewrite !in_app_iff in *. destruct I as [I|[I|I]].
        + left. apply in_map_iff in I. destruct I as [v [<- I]]. apply in_map. apply in_block_variables. exists b. split; [eapply nth_error_In; eauto|auto].
        + left. apply in_map_iff in I. destruct I as [v [<- I]]. apply in_map. apply in_block_variables. exists b. split; [eapply nth_error_In; eauto|auto].
        + right. apply flat_map_nth. eauto. }
    assert (NV : (exists nb, mapM write_var (map inf (nonblock_variables d) ++ det) = Ok nb) <-> Forall writable (map inf (nonblock_variables d) ++ det))
      by apply vars_written.
    rewrite !Forall_app in *. rewrite ?Forall_app.
    split.
    + intros [j E]. destruct (map2M _ _ _) as [bs|]; [|discriminate]. cbn [bind] in E.
      destruct (mapM write_var _) as [nb|]; [|discriminate].
      assert (B' := proj1 B (ex_intro _ bs eq_refl)). assert (N' := proj1 NV (ex_intro _ nb eq_refl)). tauto.
    + intros H. destruct (proj2 B) as [bs ->]; [tauto|]. destruct (proj2 NV) as [nb ->]; [tauto|]. cbn [bind]. eauto.
  - intros c n p _ ins outs. rewrite write_conf_eq. cbn [part_variables]. rewrite app_nil_r, Forall_app.
    pose proof (vars_written ins) as A. pose proof (vars_written outs) as B. split.
    + intros [j E]. destruct (mapM write_var ins) as [i|]; [|discriminate]. cbn [bind] in E.
      destruct (mapM write_var outs) as [o|]; [|discriminate].
      assert (A' := proj1 A (ex_intro _ i eq_refl)). assert (B' := proj1 B (ex_intro _ o eq_refl)). tauto.
    + intros [H1 H2]. destruct (proj2 A H1) as [i ->]. destruct (proj2 B H2) as [o ->]. cbn [bind]. eauto.
  - intros w n p IH S0 ins outs. specialize (IH S0). rewrite write_workflow_eq. change (part_variables (Part (KWorkflow w) n p)) with (all_variables w). rewrite !Forall_app.
    pose proof (vars_written ins) as A. pose proof (vars_written outs) as B. split.
    + intros [j E]. destruct (mapM write_var ins) as [i|]; [|discriminate]. cbn [bind] in E.
      destruct (mapM write_var outs) as [o|]; [|discriminate]. cbn [bind] in E.
      destruct (write_wf w) as [x|]; [|discriminate].
      assert (A' := proj1 A (ex_intro _ i eq_refl)). assert (B' := proj1 B (ex_intro _ o eq_refl)).
      assert (C' := proj1 IH (ex_intro _ x eq_refl)). tauto.
    + intros [H1 [H2 H3]]. destruct (proj2 A H1) as [i ->]. destruct (proj2 B H2) as [o ->]. destruct (proj2 IH H3) as [x ->]. cbn [bind]. eauto.
  - intros w bi bo bn bp k n p IH S0 ins outs. specialize (IH S0). rewrite write_foreach_eq. change (part_variables (Part (KForEach w bi bo bn bp k) n p)) with (bi ++ bo ++ all_variables w). rewrite !Forall_app.
    pose proof (vars_written ins) as A. pose proof (vars_written outs) as B.
    pose proof (vars_written bi) as A2. pose proof (vars_written bo) as B2. split.
    + intros [j E]. destruct (mapM write_var ins) as [i|]; [|discriminate]. cbn [bind] in E.
      destruct (mapM write_var outs) as [o|]; [|discriminate]. cbn [bind] in E.
      destruct (write_wf w) as [x|]; [|discriminate]. cbn [bind] in E.
      destruct (mapM write_var bi) as [i2|]; [|discriminate]. cbn [bind] in E.
      destruct (mapM write_var bo) as [o2|]; [|discriminate].
      assert (A' := proj1 A (ex_intro _ i eq_refl)). assert (B' := proj1 B (ex_intro _ o eq_refl)).
      assert (A2' := proj1 A2 (ex_intro _ i2 eq_refl)). assert (B2' := proj1 B2 (ex_intro _ o2 eq_refl)).
      assert (C' := proj1 IH (ex_intro _ x eq_refl)). tauto.
    + intros [H1 [H2 [H3 [H4 H5]]]]. destruct (proj2 A H1) as [i ->]. destruct (proj2 B H2) as [o ->]. destruct (proj2 IH H5) as [x ->].
      destruct (proj2 A2 H3) as [i2 ->]. destruct (proj2 B2 H4) as [o2 ->]. cbn [bind]. eauto.
Qed.

Lemma written_locks w j : sound w -> write_wf w = Ok j -> Forall (fun x => v_lock x = true -> v_default x <> None) (all_variables w).
Proof.
  intros S0 E. assert (H := proj1 (write_iff w S0) (ex_intro _ j E)). eapply Forall_impl; [|exact H]. intros x [A _]. exact A.
Qed.

(** ** Reading *)
Definition block_back exact (x : part * (list variable * list variable)) (ins outs : list variable) : Prop :=
  exists io, constructed (fst x) = Ok io
    /\ ports_back exact (deprecated (fst x)) ins (fst io) (fst (snd x))
    /\ ports_back exact (deprecated (fst x)) outs (snd io) (snd (snd x)).

Lemma base_class cl n p rest : undotted cl -> class_at "object_class" (base cl n p ++ rest) = Ok (in_blocks cl).
Proof.
  intros U. unfold class_at, text_at, item, get. cbn [base app find fst snd String.eqb Ascii.eqb Bool.eqb option_map of_option bind as_text].
  apply class_back. exact U.
Qed.
Lemma base_name cl n p rest : text_at "name" (base cl n p ++ rest) = Ok n.
Proof. reflexivity. Qed.
Lemma base_pos cl n p rest : pos_at "position" (base cl n p ++ rest) = Ok p.
Proof. destruct p. reflexivity. Qed.

Definition wf_goal (exact : bool) (w : wf) : Prop := forall j, sound w -> write_wf w = Ok j -> recovered (all_variables w) ->
  (if exact then keeps_locks w else exists w', read_wf j = Ok w') -> exists w', read_wf j = Ok w' /\ back exact w w'.
Definition part_goal (exact : bool) (p : part) : Prop := forall b ins outs j, fits p b ->
  length ins = length (b_in b) -> length outs = length (b_out b) ->
  write_part p ins outs = Ok j -> recovered (ins ++ outs ++ part_variables p) ->
  (if exact then part_keeps_locks p ins outs else exists x, read_block j = Ok x) ->
  exists x, read_block j = Ok x /\ part_back exact p (fst x) /\ block_back exact x ins outs.

Lemma conf_goal exact c n p : part_goal exact (Part (KConf c) n p).
Proof.
  intros b ins outs j [RG [L1 L2]] N1 N2 E R H. rewrite write_conf_eq in E.
  destruct (mapM write_var ins) as [i|] eqn:Ei; [|discriminate]. cbn [bind] in E.
  destruct (mapM write_var outs) as [o|] eqn:Eo; [|discriminate]. cbn [bind] in E. inversion E; subst j. clear E.
  rewrite read_conf_eq.
  destruct (conf_back c (length ins) n p RG) as [C1 C2].
  { intros k f ->. rewrite N1, L1. cbn [ports fst]. rewrite app_length, map_length, seq_length. simpl. lia. }
  rewrite C1. cbn [bind]. rewrite C2. cbn [bind fst snd]. cbn [part_variables] in R. rewrite app_nil_r in R.
  assert (LI : length (fst (conf_ports c)) = length ins) by (unfold SavedModel.conf_ports; cbn [fst]; rewrite map_length; congruence).
  assert (LO : length (snd (conf_ports c)) = length outs) by (unfold SavedModel.conf_ports; cbn [snd]; rewrite map_length; congruence).
  assert (DE : deprecated (Part (KConf c) n p : part) = is_old c) by (destruct c; reflexivity).
  destruct (is_old c) eqn:O; cbn [negb].
  - cbn [bind]. eexists. split; [reflexivity|]. cbn [fst]. split; [constructor|]. exists (conf_ports c). cbn [fst snd].
    split; [reflexivity|]. rewrite DE. split; apply old_ports; auto.
  - destruct (deserialize_back exact ins outs i o (conf_ports c) Ei Eo R LI LO) as [io' [Ed [B1 B2]]].
    + intros _ k x y _ Ny Ly. rewrite (conf_unlocked c y) in Ly; [discriminate|]. apply in_or_app. left. eapply nth_error_In; eauto.
    + intros _ k x y _ Ny Ly. rewrite (conf_unlocked c y) in Ly; [discriminate|]. apply in_or_app. right. eapply nth_error_In; eauto.
    + rewrite Ed. cbn [bind]. eexists. split; [reflexivity|]. cbn [fst]. split; [constructor|]. exists (conf_ports c). cbn [fst snd].
      split; [reflexivity|]. rewrite DE. auto.
Qed.

Lemma undotted_dec s : existsb (Ascii.eqb ".") (list_ascii_of_string s) = false -> undotted s.
Proof.
  intros E I. assert (existsb (Ascii.eqb ".") (list_ascii_of_string s) = true); [|congruence].
  apply existsb_exists. exists "."%char. split; auto.
Qed.

Lemma workflow_goal exact w n p : wf_goal exact w -> part_goal exact (Part (KWorkflow w) n p).
Proof.
  intros IH b ins outs j [S0 [OW [L1 L2]]] N1 N2 E R H. rewrite write_workflow_eq in E.
  destruct (mapM write_var ins) as [i|] eqn:Ei; [|discriminate]. cbn [bind] in E.
  destruct (mapM write_var outs) as [o|] eqn:Eo; [|discriminate]. cbn [bind] in E.
  destruct (write_wf w) as [x|] eqn:Ew; [|discriminate]. cbn [bind] in E. inversion E; subst j. clear E.
  rewrite read_workflow_eq in *. change (part_variables (Part (KWorkflow w) n p)) with (all_variables w) in R.
  assert (CL : class_at "object_class" (base "WorkflowBlock" n p) = Ok (in_blocks "WorkflowBlock")).
  { rewrite <- (app_nil_r (base "WorkflowBlock" n p)). apply base_class. apply undotted_dec. reflexivity. }
  assert (NM : text_at "name" (base "WorkflowBlock" n p) = Ok n) by reflexivity.
  assert (PO : pos_at "position" (base "WorkflowBlock" n p) = Ok p) by (destruct p; reflexivity).
  rewrite CL, NM, PO in *. cbn [bind] in *. change (cls_eqb (in_blocks "WorkflowBlock") (in_blocks "WorkflowBlock")) with true in *. cbn iota in *.
  destruct (IH x S0 Ew) as [w' [Er Bw]].
  { eapply recovered_incl; [|exact R]. apply incl_appr, incl_appr, incl_refl. }
  { destruct exact; [apply H|]. destruct H as [y H]. destruct (read_wf x) as [w'|]; [eauto|discriminate]. }
  rewrite Er in *. cbn [bind] in *.
  destruct (wfblock_back exact w w' n ins outs i o S0 Bw OW) as [io [io' [E1 [E2 [B1 B2]]]]]; auto; try congruence.
  { eapply recovered_incl; [|exact R]. rewrite app_assoc. apply incl_appl, incl_refl. }
  { destruct exact.
    - destruct H as [_ [H1 H2]]. split; [eapply written_locks; eauto|]. auto.
    - destruct H as [y H]. destruct (wfblock_ports w' n) as [io|]; [eauto|discriminate]. }
  rewrite E1. cbn [bind]. rewrite E2. cbn [bind]. eexists. split; [reflexivity|]. cbn [fst]. split; [constructor; exact Bw|].
  exists io. cbn [fst snd SavedSpec.constructed deprecated]. auto.
Qed.

Lemma foreach_goal exact w bi bo bn bp k n p : wf_goal exact w -> part_goal exact (Part (KForEach w bi bo bn bp k) n p).
Proof.
  intros IH b ins outs j [S0 [OW [LB1 [LB2 [LK [L1 L2]]]]]] N1 N2 E R H. rewrite write_foreach_eq in E.
  destruct (mapM write_var ins) as [i|] eqn:Ei; [|discriminate]. cbn [bind] in E.
  destruct (mapM write_var outs) as [o|] eqn:Eo; [|discriminate]. cbn [bind] in E.
  destruct (write_wf w) as [x|] eqn:Ew; [|discriminate]. cbn [bind] in E.
  destruct (mapM write_var bi) as [xi|] eqn:Exi; [|discriminate]. cbn [bind] in E.
  destruct (mapM write_var bo) as [xo|] eqn:Exo; [|discriminate]. cbn [bind] in E.
  match type of E with Ok ?t = Ok j => assert (Q : j = t) by congruence; clear E; subst j end.
  rewrite read_foreach_eq in *. change (part_variables (Part (KForEach w bi bo bn bp k) n p)) with (bi ++ bo ++ all_variables w) in R.
  set (rest := [("iter_input_index", JInt (Z.of_nat k))]) in *.
  assert (CL : class_at "object_class" (base "ForEach" n p ++ rest) = Ok (in_blocks "ForEach")).
  { apply base_class. apply undotted_dec. reflexivity. }
  assert (BN : text_at "name" (base "WorkflowBlock" bn bp) = Ok bn) by reflexivity.
  assert (BP : pos_at "position" (base "WorkflowBlock" bn bp) = Ok bp) by (destruct bp; reflexivity).
  assert (IT : nat_at "iter_input_index" (base "ForEach" n p ++ rest) = Ok k).
  { unfold nat_at, item. change (get "iter_input_index" (base "ForEach" n p ++ rest)) with (Some (JInt (Z.of_nat k))).
    cbn [of_option bind]. apply nat_back. }
  assert (NM : text_at "name" (base "ForEach" n p ++ rest) = Ok n) by reflexivity.
  assert (PO : pos_at "position" (base "ForEach" n p ++ rest) = Ok p) by (destruct p; reflexivity).
  rewrite CL, NM, PO, BN, BP, IT in *. cbn [bind] in *.
  change (cls_eqb (in_blocks "ForEach") (in_blocks "ForEach")) with true in *. cbn iota in *.
  destruct (IH x S0 Ew) as [w' [Er Bw]].
  { eapply recovered_incl; [|exact R]. do 4 apply incl_appr. apply incl_refl. }
  { destruct exact; [apply H|]. destruct H as [y H]. destruct (read_wf x) as [w'|]; [eauto|discriminate]. }
  rewrite Er in *. cbn [bind] in *.
  destruct (wfblock_back exact w w' bn bi bo xi xo S0 Bw OW) as [bio [bio' [E1 [E2 [B1 B2]]]]]; auto; try congruence.
  { eapply recovered_incl; [|exact R]. do 2 apply incl_appr. rewrite app_assoc. apply incl_appl, incl_refl. }
  { destruct exact.
    - destruct H as [_ [H1 [H2 _]]]. split; [eapply written_locks; eauto|]. auto.
    - destruct H as [y H]. destruct (wfblock_ports w' bn) as [io|]; [eauto|discriminate]. }
  rewrite E1 in *. cbn [bind] in *. rewrite E2 in *. cbn [bind] in *.
  destruct (ports_length _ _ _ _ _ B1) as [M1 M2].
  assert (LKS : exact = true -> forall q u v, nth_error bi q = Some u -> nth_error (fst bio') q = Some v ->
     v_lock v = v_lock u /\ v_default v = v_default u).
  { intros -> q u v Nu Nv. destruct (nth_len bi (fst bio) q u M1 Nu) as [y Ny].
    pose proof (ports_nth _ _ _ _ _ B1 q u y v Nu Ny Nv) as Z. unfold port_back in Z. subst v. auto. }
  assert (EX : exists io, foreach_ports (fst bio') k = Ok io).
  { destruct exact.
    - apply foreach_ok; [lia|]. apply Forall_forall. intros v Iv Lv. destruct (In_nth_error _ _ Iv) as [q Nv].
      destruct (nth_len (fst bio') bi q v (eq_sym M2) Nv) as [u Nu]. destruct (LKS eq_refl q u v Nu Nv) as [A B].
      rewrite B. assert (W : Forall writable bi) by (apply vars_written; eauto). rewrite Forall_forall in W.
      apply (W u (nth_error_In _ _ Nu)). congruence.
    - destruct H as [y H]. destruct (foreach_ports (fst bio') k) as [io|]; [eauto|discriminate]. }
  destruct EX as [io Eio]. rewrite Eio. cbn [bind].
  destruct (foreach_inv _ _ _ Eio) as [F1 [F2 [F3 F4]]].
  destruct (deserialize_back exact ins outs i o io Ei Eo) as [io' [Ed [D1 D2]]]; try congruence.
  { eapply recovered_incl; [|exact R]. rewrite app_assoc. apply incl_appl, incl_refl. }
  { intros X q u y Nu Ny Ly. destruct (nth_len (fst io) (fst bio') q y (eq_sym F1) Ny) as [v Nv].
    destruct (F4 q v y Nv Ny Ly) as [Dq Lv]. destruct (nth_len (fst bio') bi q v (eq_sym M2) Nv) as [z Nz].
    destruct (LKS X q z v Nz Nv) as [A _]. subst exact. destruct H as [_ [_ [_ H]]]. apply (H q z u Dq Nz Nu). congruence. }
  { intros X q u y Nu Ny Ly. rewrite (F3 y) in Ly; [discriminate|]. eapply nth_error_In; eauto. }
  rewrite Ed. cbn [bind]. eexists. split; [reflexivity|]. cbn [fst]. split.
  - destruct bio as [ins1 outs1]. eapply pb_foreach; eauto.
  - exists io. cbn [fst snd SavedSpec.constructed deprecated]. auto.
Qed.

Lemma parts_goal exact (inf : nat -> variable) ps : Forall (part_goal exact) ps -> forall bl bs, all2 fits ps bl ->
  map2M (fun p b => write_part p (map inf (b_in b)) (map inf (b_out b))) ps bl = Ok bs ->
  recovered (map inf (flat_map (fun b => b_in b ++ b_out b) bl) ++ flat_map part_variables ps) ->
  (if exact then all2 (fun p b => part_keeps_locks p (map inf (b_in b)) (map inf (b_out b))) ps bl
   else exists l, map1M read_block bs = Ok l) ->
  exists l, map1M read_block bs = Ok l /\ Forall2 (part_back exact) ps (map fst l)
    /\ Forall2 (fun x b => block_back exact x (map inf (b_in b)) (map inf (b_out b))) l bl.
Proof.
  intros F. induction F as [|p ps G F IH]; intros [|b bl] bs AF E R H; cbn [all2] in AF; try contradiction.
  - cbn [map2M] in E. inversion E; subst. exists []. cbn [map1M map]. split; [reflexivity|split; constructor].
  - destruct AF as [A1 A2]. cbn [map2M] in E. destruct (write_part p _ _) as [c|] eqn:Ec; [|discriminate]. cbn [bind] in E.
    destruct (map2M _ ps bl) as [r|] eqn:Er; [|discriminate]. cbn [bind] in E. inversion E; subst bs. clear E.
    cbn [map1M] in H |- *.
    destruct (G b (map inf (b_in b)) (map inf (b_out b)) c A1) as [x [X1 [X2 X3]]]; rewrite ?map_length; auto.
    { eapply recovered_incl; [|exact R]. cbn [flat_map]. rewrite !map_app. intros z I. rewrite !in_app_iff in *. tauto. }
    { destruct exact; [apply H|]. destruct H as [l H]. destruct (read_block c) as [x|]; [eauto|discriminate]. }
    destruct (IH bl r A2 Er) as [l [Y1 [Y2 Y3]]].
    { eapply recovered_incl; [|exact R]. cbn [flat_map]. rewrite !map_app. intros z I. rewrite !in_app_iff in *. tauto. }
    { destruct exact; [apply H|]. destruct H as [l H]. rewrite X1 in H. cbn [bind] in H.
      destruct (map1M read_block r) as [l'|]; [eauto|discriminate]. }
    rewrite X1. cbn [bind]. rewrite Y1. cbn [bind]. exists (x :: l). split; [reflexivity|]. cbn [map]. split; constructor; auto.
Qed.

Lemma Forall2_nth {A B} (P : A -> B -> Prop) l m : Forall2 P l m -> forall i a b, nth_error l i = Some a -> nth_error m i = Some b -> P a b.
Proof.
  intros F. induction F; intros [|i] a b; simpl; try discriminate; eauto. intros X Y. inversion X; inversion Y; subst; auto.
Qed.

Lemma wf_case exact d inf ps ss det descr doc n : Forall (part_goal exact) ps -> wf_goal exact (Wf d inf ps ss det descr doc n).
Proof.
  intros F j S0 E R H. rewrite sound_eq in S0. destruct S0 as [WF [AF SS]]. rewrite write_wf_eq in E.
  destruct (map2M _ ps (blocks d)) as [bs|] eqn:Eb; [|discriminate]. cbn [bind] in E.
  destruct (serialized_pipes d) as [pp|] eqn:Ep; [|discriminate]. cbn [bind] in E.
  destruct (serialized_output d) as [o|] eqn:Eo; [|discriminate]. cbn [bind] in E.
  destruct (mapM write_var _) as [nb|] eqn:En; [|discriminate]. cbn [bind] in E.
  destruct (mapM (write_step d) ss) as [sd|] eqn:Es; [|discriminate]. cbn [bind] in E. inversion E; subst j. clear E.
  rewrite read_wf_eq in *.
  rewrite all_variables_eq in R. rewrite (variables_split d WF), map_app in R.
  assert (RN : mapM read_nbv nb = Ok (map nbv_back (map inf (nonblock_variables d)) ++ map nbv_back det)).
  { rewrite <- map_app. apply nbvs_back; auto. eapply recovered_incl; [|exact R]. intros z I. rewrite !in_app_iff in *. tauto. }
  destruct (parts_goal exact inf ps F (blocks d) bs AF Eb) as [l [X1 [X2 X3]]].
  { eapply recovered_incl; [|exact R]. unfold block_variables. intros z I. rewrite !in_app_iff in *. tauto. }
  { destruct exact; [apply H|]. destruct H as [w' H]. destruct (map1M read_block bs) as [l|]; [eauto|discriminate]. }
  rewrite X1. cbn [bind]. rewrite RN. cbn [bind].
  destruct (assemble_ok d l (map nbv_back (map inf (nonblock_variables d))) (map nbv_back det) pp o ss sd descr doc n WF) as [info' [A1 [A2 A3]]]; auto.
  { clear - X3. induction X3 as [|x b l bl [io [_ [B1 B2]]] X3 IH]; constructor; auto.
    apply ports_length in B1, B2. rewrite !map_length in *. split; [apply B1|apply B2]. }
  { rewrite !map_length. reflexivity. }
  rewrite A1. eexists. split; [reflexivity|].
  replace (find_name (map (fun v => info' (rank (variables d) v)) (nonblock_variables d)) [])
    with (if existsb (fun v => String.eqb (t_name (v_label (inf v))) "_result_name_") (nonblock_variables d) then []
           else [mkVar None false (mkTag "_result_name_" "Result Name" (0, 0)%Z)] : list variable).
  2:{ rewrite A2. unfold find_name. rewrite app_nil_r, map_map, existsb_map. reflexivity. }
  constructor.
  - apply rank_separates. exact WF.
  - exact X2.
  - intros v I. destruct (In_nth_error _ _ I) as [q N].
    pose proof (map_nth_error (fun v => info' (rank (variables d) v)) q _ N) as N1. rewrite A2, map_map in N1.
    rewrite (map_nth_error (fun x => nbv_back (inf x)) q _ N) in N1. congruence.
  - intros q b p' Nb Np. rewrite nth_error_map in Np. destruct (nth_error l q) as [x|] eqn:Nx; [|discriminate].
    inversion Np; subst p'. destruct (Forall2_nth _ _ _ X3 q x b Nx Nb) as [io [C [B1 B2]]].
    assert (Ny : nth_error (map snd l) q = Some (snd x)) by (apply map_nth_error; exact Nx).
    destruct (Forall2_nth _ _ _ A3 q (snd x) b Ny Nb) as [Y1 Y2].
    exists (fst io), (snd io). rewrite Y1, Y2. split; [rewrite C; destruct io; reflexivity|]. auto.
Qed.

Lemma main exact : forall w, wf_goal exact w.
Proof.
  apply (wf_all (wf_goal exact) (part_goal exact)).
  - intros. apply wf_case. auto.
  - intros. apply conf_goal.
  - intros. apply workflow_goal. auto.
  - intros. apply foreach_goal. auto.
Qed.
End Main.

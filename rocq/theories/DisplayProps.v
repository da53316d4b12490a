(** The displays of an object (C60). *)
From Coq Require Import Bool String List.
From Verif Require Import Base BaseProofs DisplayModel DisplaySpec DisplayProofs.
Import ListNotations.
Local Open Scope string_scope.

(** Settings: a default markdown when no method is decorated for markdown, the methods that are
    decorated for plots, markdowns and 3D views, each once and in this order, and a tree. *)
Theorem C60_settings : forall c, (forall m, In m c -> ordinary m) -> NoDup (map key c) ->
  exists before plots markdowns cads tree,
    display_settings c = Ok (before ++ (plots ++ markdowns ++ cads) ++ [tree])%list
    /\ tree = {| s_selector := "Structure Tree"; s_type := Some "tree"; s_method := ""; s_serialize := false; s_load := false |}
    /\ ((exists m sel load, In m c /\ has_view m Markdown sel load) /\ before = []
        \/ (forall m sel load, In m c -> ~ has_view m Markdown sel load)
           /\ before = [{| s_selector := "Markdown"; s_type := Some "markdown"; s_method := "to_markdown"; s_serialize := false; s_load := true |}])
    /\ (forall s, In s plots <-> exists m sel load, In m c /\ has_view m PlotData sel load
          /\ s = {| s_selector := match sel with Some x => x | None => key m end; s_type := Some "plot_data";
                    s_method := key m; s_serialize := true; s_load := load |})
    /\ (forall s, In s markdowns <-> exists m sel load, In m c /\ has_view m Markdown sel load
          /\ s = {| s_selector := match sel with Some x => x | None => key m end; s_type := Some "markdown";
                    s_method := key m; s_serialize := false; s_load := load |})
    /\ (forall s, In s cads <-> exists m sel load, In m c /\ has_view m Cad sel load
          /\ s = {| s_selector := match sel with Some x => x | None => key m end; s_type := Some "babylon_data";
                    s_method := key m; s_serialize := true; s_load := load |})
    /\ NoDup (map s_method (plots ++ markdowns ++ cads)%list)
    /\ forall l, In l [plots; markdowns; cads] -> exists keep, map s_method l = filter keep (map key c).
Proof.
  intros c H ND. unfold display_settings, settings_from_decorators. cbn [mapM]. rewrite !from_name by auto. cbn [bind List.concat].
  set (F := fun v => filter (fun m => memb String.eqb (view_name v) (map head_name (decos m))) c).
  set (plots := map setting_of_member (F PlotData)). set (mds := map setting_of_member (F Markdown)). set (cads := map setting_of_member (F Cad)).
  change (map setting_of_member (filter (fun m => memb String.eqb "plot_data_view" (map head_name (decos m))) c)) with plots.
  change (map setting_of_member (filter (fun m => memb String.eqb "markdown_view" (map head_name (decos m))) c)) with mds.
  change (map setting_of_member (filter (fun m => memb String.eqb "cad_view" (map head_name (decos m))) c)) with cads.
  rewrite app_nil_r.
  assert (IN : forall v s, In s (map setting_of_member (F v)) <-> exists m sel load, In m c /\ has_view m v sel load /\ s = setting_of (key m) v sel load).
  { intros v s. rewrite in_map_iff. split.
    - intros [m [<- I]]. apply filter_view in I; auto. destruct I as [I [sel [load X]]]. exists m, sel, load. split; auto. split; auto.
      destruct X as [ds [d [S [D E]]]]. apply (one_view m v sel load d); auto. unfold decos. rewrite S. auto.
    - intros [m [sel [load [I [X ->]]]]]. exists m. split; [|apply filter_view; eauto].
      destruct X as [ds [d [S [D E]]]]. apply (one_view m v sel load d); auto. unfold decos. rewrite S. auto. }
  assert (ME : forall v, map s_method (map setting_of_member (F v)) = filter (fun k => memb String.eqb k (map key (F v))) (map key c)).
  { intros v. rewrite map_map. change (fun x => s_method (setting_of_member x)) with key.
    assert (FE : forall m, In m c -> memb String.eqb (key m) (map key (F v)) = memb String.eqb (view_name v) (map head_name (decos m))).
    { intros m I. apply eq_true_iff_eq. rewrite (memb_In String.eqb String.eqb_eq). rewrite in_map_iff. split.
      - intros [x [E J]]. apply filter_In in J. destruct J as [J K].
        assert (x = m); [|subst; auto]. pose proof (found c m ND I) as F1. pose proof (found c x ND J) as F2. rewrite E in F2. congruence.
      - intros K. exists m. split; auto. apply filter_In. auto. }
    unfold F at 1. revert FE. generalize (map key (F v)) as ks. clear. induction c as [|m c' IH]; simpl; intros ks H; auto.
    rewrite (H m) by auto. destruct (memb String.eqb (view_name v) (map head_name (decos m))); simpl; rewrite (IH ks); auto. }
  assert (DIS : forall v v' k, In k (map s_method (map setting_of_member (F v))) -> In k (map s_method (map setting_of_member (F v'))) -> v = v').
  { intros v v' k I J. rewrite map_map in I, J. change (fun x => s_method (setting_of_member x)) with key in I, J. apply in_map_iff in I, J. destruct I as [m [E I]], J as [m' [E' J]].
    apply filter_view in I, J; auto. destruct I as [I [sel [load X]]], J as [J [sel' [load' Y]]].
    assert (m' = m); [|subst m'].
    { pose proof (found c m ND I) as F1. pose proof (found c m' ND J) as F2. rewrite E' in F2. rewrite E in F1. congruence. }
    destruct X as [ds [d [S [D W]]]], Y as [ds' [d' [S' [D' W']]]].
    assert (O : ordinary m) by auto.
    assert (D1 : In d (decos m)) by (unfold decos; rewrite S; auto). assert (D2 : In d' (decos m)) by (unfold decos; rewrite S'; auto).
    destruct (one_view m v sel load d O D1 W) as [_ U]. destruct (U v' sel' load' d' D2 W') as [-> _]. auto. }
  assert (TY : forall v s, In s (map setting_of_member (F v)) -> s_type s = Some (type_of v)).
  { intros v s I. apply IN in I. destruct I as [m [sel [load [_ [_ ->]]]]]. auto. }
  set (has := existsb _ (plots ++ mds ++ cads)%list).
  assert (HAS : has = true <-> exists m sel load, In m c /\ has_view m Markdown sel load).
  { unfold has. rewrite existsb_exists. split.
    - intros [s [I T]]. apply in_app_or in I. destruct I as [I|I].
      + rewrite (TY PlotData s I) in T. discriminate.
      + apply in_app_or in I. destruct I as [I|I].
        * apply IN in I. destruct I as [m [sel [load [I [X _]]]]]. eauto.
        * rewrite (TY Cad s I) in T. discriminate.
    - intros [m [sel [load [I X]]]]. exists (setting_of (key m) Markdown sel load). split; auto.
      apply in_or_app. right. apply in_or_app. left. apply IN. exists m, sel, load. auto. }
  exists (if has then [] else [{| s_selector := "Markdown"; s_type := Some "markdown"; s_method := "to_markdown"; s_serialize := false; s_load := true |}]),
    plots, mds, cads, {| s_selector := "Structure Tree"; s_type := Some "tree"; s_method := ""; s_serialize := false; s_load := false |}.
  split; [destruct has; reflexivity|]. split; auto. split; [|split; [|split; [|split; [|split]]]].
  - destruct has eqn:E.
    + left. split; auto. apply HAS; auto.
    + right. split; auto. intros m sel load I X. assert (false = true) by (apply HAS; eauto). discriminate.
  - exact (IN PlotData).
  - exact (IN Markdown).
  - exact (IN Cad).
  - assert (N : forall v, NoDup (map s_method (map setting_of_member (F v)))) by (intros v; rewrite ME; apply NoDup_filter; auto).
    assert (A : forall (l m : list string), NoDup l -> NoDup m -> (forall x, In x l -> ~ In x m) -> NoDup (l ++ m)%list).
    { intros l m NL NM DJ. induction l as [|x l IH]; simpl; auto. inversion NL; subst. constructor.
      - rewrite in_app_iff. intros [I|I]; [tauto|]. apply (DJ x); simpl; auto.
      - apply IH; auto. intros y I. apply DJ. simpl; auto. }
    rewrite !map_app. apply A; [apply N| |].
    + apply A; [apply N|apply N|]. intros x I J. discriminate (DIS _ _ _ I J).
    + intros x I J. apply in_app_or in J. destruct J as [J|J]; discriminate (DIS _ _ _ I J).
  - intros l [<-|[<-|[<-|[]]]]; eexists; apply ME.
Qed.

(** A display per setting, that of the first setting with the same selector; results that can
    be serialized and cleaned are shown, and an exception of the method is shown too. *)
Lemma shown V none truthy call serialize cleandoc c l s s1 :
  display_settings c = Ok l -> find (fun x => String.eqb (s_selector x) (s_selector s)) l = Some s1 ->
    (forall d, display_from_selector V none truthy call serialize cleandoc c (s_selector s) = Ok d ->
          shows V none truthy call serialize cleandoc s1 d)
    /\ ((forall v, is_ok (serialize v) = true) -> (forall v, is_ok (cleandoc v) = true) ->
        is_ok (display_from_selector V none truthy call serialize cleandoc c (s_selector s)) = true).
Proof.
  intros E F. split.
  - intros d. unfold display_from_selector, settings_from_selector. rewrite E. cbn [bind]. rewrite F. cbn [of_option bind].
    assert (P : forall v t d, (let* data := if s_serialize s1 then serialize v else Ok v in display_object V truthy cleandoc (s_type s1) data t) = Ok d ->
       d_type d = s_type s1 /\ d_traceback d = t /\ prepared V truthy serialize cleandoc s1 v (d_data d)).
    { intros v t d0 X. unfold prepared.
      destruct (if s_serialize s1 then serialize v else Ok v) as [u|] eqn:U; cbn [bind] in X; [|discriminate].
      assert (U' : if s_serialize s1 then serialize v = Ok u else u = v) by (destruct (s_serialize s1); congruence).
      unfold display_object in X.
      destruct (s_type s1) as [ty|] eqn:TY.
      - destruct (truthy u) eqn:TR; cbn [andb] in X.
        + destruct (String.eqb_spec ty "markdown") as [->|NE].
          * destruct (cleandoc u) as [w|] eqn:CD; cbn [bind] in X; [|discriminate]. inversion X; subst d0. simpl. split; auto. split; auto.
            exists u. auto.
          * cbn [bind] in X. inversion X; subst d0. simpl. split; auto. split; auto. exists u. split; auto. right. split; auto. left. congruence.
        + cbn [bind] in X. inversion X; subst d0. simpl. split; auto. split; auto. exists u. split; auto.
      - cbn [bind] in X. inversion X; subst d0. simpl. split; auto. split; auto. exists u. split; auto. right. split; auto. left. discriminate. }
    unfold call_method. destruct (String.eqb_spec (s_method s1) "") as [M|M].
    + intros X. destruct (P _ _ _ X) as [A [B C]]. split; auto. right. exists AttributeError. auto.
    + destruct (call (s_method s1)) as [v|e] eqn:CA; intros X; destruct (P _ _ _ X) as [A [B C]]; split; auto.
      * left. exists v. auto.
      * right. exists e. auto.
  - intros OS OC. unfold display_from_selector, settings_from_selector. rewrite E. cbn [bind]. rewrite F. cbn [of_option bind].
    assert (P : forall v t, is_ok (let* data := if s_serialize s1 then serialize v else Ok v in display_object V truthy cleandoc (s_type s1) data t) = true).
    { intros v t. specialize (OS v). destruct (s_serialize s1).
      - destruct (serialize v) as [u|]; [|discriminate]. cbn [bind]. unfold display_object. specialize (OC u).
        destruct (s_type s1) as [ty|]; auto. destruct (truthy u && String.eqb ty "markdown"); auto. destruct (cleandoc u); auto.
      - cbn [bind]. unfold display_object. specialize (OC v). destruct (s_type s1) as [ty|]; auto.
        destruct (truthy v && String.eqb ty "markdown"); auto. destruct (cleandoc v); auto. }
    destruct (call_method V call (s_method s1)); apply P.
Qed.

Theorem C60_displays : forall V none truthy call serialize cleandoc c l,
  display_settings c = Ok l -> NoDup (map s_selector l) ->
  (forall ds, displays V none truthy call serialize cleandoc c = Ok ds ->
     Forall2 (shows V none truthy call serialize cleandoc) l ds)
  /\ ((forall v, is_ok (serialize v) = true) -> (forall v, is_ok (cleandoc v) = true) ->
      exists ds, displays V none truthy call serialize cleandoc c = Ok ds).
Proof.
  intros V none truthy call serialize cleandoc c l E ND. unfold displays. rewrite E. cbn [bind].
  assert (H : forall s, In s l ->
    (forall d, display_from_selector V none truthy call serialize cleandoc c (s_selector s) = Ok d -> shows V none truthy call serialize cleandoc s d)
    /\ ((forall v, is_ok (serialize v) = true) -> (forall v, is_ok (cleandoc v) = true) ->
        is_ok (display_from_selector V none truthy call serialize cleandoc c (s_selector s)) = true)).
  { intros s I. apply (shown V none truthy call serialize cleandoc c l); auto.
    clear - ND I. induction l as [|x l IH]; simpl in *; [tauto|]. inversion ND as [|? ? N D]; subst.
    destruct I as [->|I]; [rewrite String.eqb_refl; auto|]. destruct (String.eqb_spec (s_selector x) (s_selector s)) as [Q|Q]; auto.
    exfalso. apply N. rewrite Q. apply in_map; auto. }
  clear E ND. split.
  - intros ds X. revert ds X. induction l as [|s l IH]; simpl; intros ds X.
    + inversion X. constructor.
    + destruct (display_from_selector V none truthy call serialize cleandoc c (s_selector s)) as [d|] eqn:D; cbn [bind] in X; [|discriminate].
      destruct (mapM _ l) as [ds'|] eqn:M; cbn [bind] in X; [|discriminate]. inversion X; subst. constructor.
      * apply (H s); simpl; auto.
      * apply IH; auto. intros s' I. apply H. simpl; auto.
  - intros OS OC. induction l as [|s l IH]; simpl; eauto.
    destruct (IH (fun s' I => H s' (or_intror I))) as [ds X].
    specialize (proj2 (H s (or_introl eq_refl)) OS OC) as Q.
    destruct (display_from_selector V none truthy call serialize cleandoc c (s_selector s)); [|discriminate]. cbn [bind]. rewrite X. cbn [bind]. eauto.
Qed.

(** In general the display of a setting is that of the first one with its selector, at its
    place or before. *)
Theorem C60_first : forall V none truthy call serialize cleandoc c l ds,
  display_settings c = Ok l -> displays V none truthy call serialize cleandoc c = Ok ds ->
  List.length ds = List.length l /\
  forall i s d, nth_error l i = Some s -> nth_error ds i = Some d ->
  exists j s1, j <= i /\ nth_error l j = Some s1 /\ s_selector s1 = s_selector s
    /\ (forall k s2, k < j -> nth_error l k = Some s2 -> s_selector s2 <> s_selector s)
    /\ shows V none truthy call serialize cleandoc s1 d.
Proof.
  intros V none truthy call serialize cleandoc c l ds E X. unfold displays in X. rewrite E in X. cbn [bind] in X.
  split; [eapply mapM_length; eauto|]. intros i s d S D.
  assert (Y : display_from_selector V none truthy call serialize cleandoc c (s_selector s) = Ok d).
  { clear E. revert l ds X S D. induction i as [|i IH]; intros [|s0 l] ds X S D; try discriminate; simpl in X, S;
    destruct (display_from_selector V none truthy call serialize cleandoc c (s_selector s0)) as [d0|] eqn:D0; cbn [bind] in X; try discriminate;
    destruct (mapM _ l) as [ds'|] eqn:M; cbn [bind] in X; try discriminate; inversion X; subst ds; simpl in D.
    - congruence.
    - eapply IH; eauto. }
  assert (F : exists j s1, j <= i /\ nth_error l j = Some s1 /\ s_selector s1 = s_selector s
    /\ (forall k s2, k < j -> nth_error l k = Some s2 -> s_selector s2 <> s_selector s)
    /\ find (fun x => String.eqb (s_selector x) (s_selector s)) l = Some s1).
  { clear - S. revert l S. induction i as [|i IH]; intros [|x l] S; try discriminate; simpl in S.
    - inversion S; subst. exists 0, s. simpl. rewrite String.eqb_refl. repeat split; auto. intros k s2 K. inversion K.
    - simpl. destruct (String.eqb_spec (s_selector x) (s_selector s)) as [Q|Q].
      + exists 0, x. repeat split; auto; try apply le_0_n. intros k s2 K. inversion K.
      + destruct (IH l S) as [j [s1 [J [N [T [FI G]]]]]]. exists (Datatypes.S j), s1. split; [apply le_n_S; auto|]. split; auto. split; auto. split; auto.
        intros [|k] s2 K W; simpl in W; [inversion W; subst; auto|]. apply (FI k s2); auto. apply le_S_n; auto. }
  destruct F as [j [s1 [J [N [T [FI G]]]]]]. exists j, s1. split; auto. split; auto. split; auto. split; auto.
  apply (proj1 (shown V none truthy call serialize cleandoc c l s s1 E G)). auto.
Qed.

(** The tree shows nothing but the AttributeError of an attribute without a name. *)
Theorem C60_tree : forall V none truthy call serialize cleandoc c l ds,
  display_settings c = Ok l -> NoDup (map s_selector l) ->
  displays V none truthy call serialize cleandoc c = Ok ds ->
  exists before d, ds = (before ++ [d])%list /\ d_type d = Some "tree" /\ d_data d = none /\ d_traceback d = Some AttributeError.
Proof.
  intros V none truthy call serialize cleandoc c l ds E ND X.
  destruct (C60_displays V none truthy call serialize cleandoc c l E ND) as [A _]. specialize (A ds X).
  assert (L : exists l0, l = (l0 ++ [{| s_selector := "Structure Tree"; s_type := Some "tree"; s_method := ""; s_serialize := false; s_load := false |}])%list).
  { unfold display_settings in E. destruct (settings_from_decorators c); cbn [bind] in E; [|discriminate]. inversion E. eauto. }
  destruct L as [l0 ->]. apply Forall2_app_inv_l in A. destruct A as [before [t [_ [A ->]]]].
  inversion A as [|? d ? t' S T]; subst. inversion T; subst. exists before, d. split; auto.
  destruct S as [TY [[v [M _]]|[e [[[M _]|[_ ->]] [TB [u [U P]]]]]]]; cbn [s_method s_serialize s_type] in *; try congruence.
  split; auto. subst u. split; auto. destruct P as [[P _]|[_ P]]; [discriminate|auto].
Qed.

(** No display at all when a method has no source, as those a dataclass writes, or a decorator
    has no name. *)
Theorem C60_no_source : forall V none truthy call serialize cleandoc c m,
  In m c ->
  (forall e, source_of m = Err e ->
     is_ok (display_settings c) = false /\ is_ok (displays V none truthy call serialize cleandoc c) = false)
  /\ (forall n ds d, source_of m = Ok (Def n ds) -> In d ds -> written d = Other ->
     is_ok (display_settings c) = false /\ is_ok (displays V none truthy call serialize cleandoc c) = false).
Proof.
  intros V none truthy call serialize cleandoc c m I.
  assert (K : is_ok (settings_from_decorator_name c "plot_data_view") = false ->
    is_ok (display_settings c) = false /\ is_ok (displays V none truthy call serialize cleandoc c) = false).
  { intros H. assert (G : is_ok (display_settings c) = false).
    { unfold display_settings, settings_from_decorators. cbn [mapM]. destruct (settings_from_decorator_name c "plot_data_view"); [discriminate|auto]. }
    split; auto. unfold displays. destruct (display_settings c); [discriminate|auto]. }
  assert (F : forall {A B} (f : A -> res B) l x, In x l -> is_ok (f x) = false -> is_ok (mapM f l) = false).
  { intros A B f l x J H. induction l as [|y l IH]; simpl in *; [tauto|]. destruct J as [->|J].
    - destruct (f x); [discriminate|auto].
    - destruct (f y); auto. cbn [bind]. specialize (IH J). destruct (mapM f l); [discriminate|auto]. }
  split.
  - intros e E. apply K. unfold settings_from_decorator_name, get_decorated_methods, get_all_decorated_methods.
    assert (G : is_ok (mapM source_of c) = false) by (apply (F _ _ _ _ m I); rewrite E; auto).
    destruct (mapM source_of c); [discriminate|auto].
  - intros n ds d E D W. apply K. unfold settings_from_decorator_name, get_decorated_methods, get_all_decorated_methods.
    destruct (mapM source_of c) as [defs|] eqn:M; cbn [bind]; auto.
    assert (ID : In (Def n ds) defs).
    { clear K. revert defs M I. clear - E. induction c as [|x c IH]; simpl; intros defs M I; [tauto|].
      destruct (source_of x) as [y|] eqn:SX; cbn [bind] in M; [|discriminate]. destruct (mapM source_of c) as [ys|] eqn:MY; cbn [bind] in M; [|discriminate].
      inversion M; subst. destruct I as [->|I]; simpl; [left; congruence|right; eapply IH; eauto]. }
    match goal with |- context [mapM ?f ?l] => assert (G : is_ok (mapM f l) = false) end.
    { apply (F _ _ _ _ (n, ds)).
      - apply in_flat_map. exists (Def n ds). split; auto. destruct ds; simpl in *; auto.
      - cbn [fst snd]. assert (G : is_ok (mapM name_of ds) = false) by (apply (F _ _ _ _ d D); unfold name_of; rewrite W; auto).
        destruct (mapM name_of ds); [discriminate|auto]. }
    match goal with |- context [mapM ?f ?l] => destruct (mapM f l) end; [discriminate|auto].
Qed.

(** A result that cannot be serialized leaves the object without displays, although an
    exception of the method does not. *)
Theorem C60_unserialised : forall V none truthy call serialize cleandoc c l s v e,
  display_settings c = Ok l -> NoDup (map s_selector l) -> In s l -> s_method s <> "" ->
  s_serialize s = true -> call (s_method s) = Ok v -> serialize v = Err e ->
  is_ok (displays V none truthy call serialize cleandoc c) = false.
Proof.
  intros V none truthy call serialize cleandoc c l s v e E ND I M S C Z.
  destruct (displays V none truthy call serialize cleandoc c) as [ds|] eqn:X; auto. exfalso.
  destruct (C60_displays V none truthy call serialize cleandoc c l E ND) as [A _]. specialize (A ds X).
  clear E X ND. induction A as [|s' d l ds H A IH]; [destruct I|]. destruct I as [->|I]; auto.
  destruct H as [_ [[w [_ [C' [_ [u [U _]]]]]]|[e' [[[_ C']|[N _]] _]]]].
  - rewrite S in U. congruence.
  - congruence.
  - congruence.
Qed.

(** Views that are not listed, or not as they are decorated. *)
Definition deco (n : string) (e : effect) : decorator := {| written := Name n; does := e |}.
Definition method (n : string) (ds : list decorator) : member := {| key := n; source_of := Ok (Def n ds) |}.

Definition photo : member := method "photo" [deco "picture_view" (View Picture (Some "Photo") false)].
Theorem C60_pictures_refuted : ~ (forall c m v sel load, (forall m, In m c -> ordinary m) -> NoDup (map key c) ->
    In m c -> has_view m v sel load ->
    exists l s, display_settings c = Ok l /\ In s l /\ s_method s = key m)
  /\ forall V call plots, mpl_plot V call plots [photo] "Photo" = Err ValueError.
Proof.
  split; [|reflexivity]. intros H. destruct (H [photo] photo Picture (Some "Photo") false) as [l [s [E [I M]]]].
  - intros m [<-|[]]. exists [deco "picture_view" (View Picture (Some "Photo") false)]. split; auto. split.
    + intros d [<-|[]]. exists "picture_view". simpl. auto.
    + right. exists [], (deco "picture_view" (View Picture (Some "Photo") false)), []. split; auto. intros x [].
  - repeat constructor; simpl; tauto.
  - simpl; auto.
  - exists [deco "picture_view" (View Picture (Some "Photo") false)], (deco "picture_view" (View Picture (Some "Photo") false)). simpl; auto.
  - vm_compute in E. inversion E; subst. simpl in I. destruct I as [<-|[<-|[]]]; discriminate.
Qed.

(** A view imported under another name is not seen. *)
Theorem C60_renamed_refuted : ~ (forall c n d v sel load, In (method n [d]) c -> NoDup (map key c) ->
    does d = View v sel load -> v <> Picture ->
    exists l s, display_settings c = Ok l /\ In s l /\ s_method s = n).
Proof.
  intros H. destruct (H [method "graph" [deco "plot" (View PlotData (Some "Graph") false)]] "graph" (deco "plot" (View PlotData (Some "Graph") false))
    PlotData (Some "Graph") false) as [l [s [E [I M]]]]; simpl; auto; try discriminate.
  - repeat constructor; simpl; tauto.
  - vm_compute in E. inversion E; subst. simpl in I. destruct I as [<-|[<-|[]]]; discriminate.
Qed.

(** Two views of the same method are the one at the top, twice. *)
Theorem C60_stacked : forall n sel sel' load load',
  display_settings [method n [deco "plot_data_view" (View PlotData (Some sel) load); deco "markdown_view" (View Markdown (Some sel') load')]]
  = Ok [{| s_selector := "Markdown"; s_type := Some "markdown"; s_method := "to_markdown"; s_serialize := false; s_load := true |};
        {| s_selector := sel; s_type := Some "plot_data"; s_method := n; s_serialize := true; s_load := load |};
        {| s_selector := sel; s_type := Some "plot_data"; s_method := n; s_serialize := true; s_load := load |};
        {| s_selector := "Structure Tree"; s_type := Some "tree"; s_method := ""; s_serialize := false; s_load := false |}].
Proof.
  intros. unfold display_settings, settings_from_decorators, settings_from_decorator_name, get_decorated_methods, method, get_all_decorated_methods.
  cbn [mapM source_of bind flat_map app name_of written deco snd fst map filter memb existsb]. unfold get_attribute. cbn [find key].
  cbn. rewrite !String.eqb_refl. reflexivity.
Qed.

(** Two methods with one selector: the first is shown twice. *)
Theorem C60_selector_refuted : ~ (forall c (call : string -> res nat) l ds, (forall m, In m c -> ordinary m) -> NoDup (map key c) ->
    display_settings c = Ok l -> displays nat 0 (fun _ => true) call Ok Ok c = Ok ds ->
    Forall2 (shows nat 0 (fun _ => true) call Ok Ok) l ds).
Proof.
  intros H.
  set (d := deco "plot_data_view" (View PlotData (Some "Plot") false)).
  assert (O : forall m, In m [method "left" [d]; method "right" [d]] -> ordinary m).
  { intros m [<-|[<-|[]]]; exists [d]; (split; [auto|]; split; [intros x [<-|[]]; exists "plot_data_view"; simpl; auto|
      right; exists [], d, []; split; auto; intros x []]). }
  assert (N : NoDup (map key [method "left" [d]; method "right" [d]])) by (repeat constructor; simpl; intuition discriminate).
  specialize (H _ (fun m => if String.eqb m "right" then Ok 2 else Ok 1) _ _ O N eq_refl eq_refl).
  vm_compute in H. inversion H as [|? ? ? ? _ H1]; subst. inversion H1 as [|? ? ? ? _ H2]; subst. inversion H2 as [|? ? ? ? S _]; subst.
  destruct S as [_ [[v [_ [C [_ [u [U P]]]]]]|[e [[[_ C]|[C _]] _]]]]; simpl in *; try discriminate.
  inversion C; subst v. inversion U; subst u. destruct P as [[P _]|[_ P]]; discriminate.
Qed.

(** Plots with matplotlib: those of plot views, as the method of the first setting with the selector gives them. *)
Theorem C60_mpl_plot : forall V call (plots : V -> option (res V)) c l sel, display_settings c = Ok l ->
  ((forall s, In s l -> s_selector s <> sel) -> mpl_plot V call plots c sel = Err ValueError)
  /\ forall u s v, l = (u ++ s :: v)%list -> s_selector s = sel -> (forall x, In x u -> s_selector x <> sel) ->
     (s_type s <> Some "plot_data" -> mpl_plot V call plots c sel = Err NotImplementedError)
     /\ (s_type s = Some "plot_data" -> s_method s <> "" ->
         (forall e, call (s_method s) = Err e -> mpl_plot V call plots c sel = Err e)
         /\ forall d, call (s_method s) = Ok d ->
            (plots d = None -> mpl_plot V call plots c sel = Err NotImplementedError)
            /\ forall r, plots d = Some r -> mpl_plot V call plots c sel = r).
Proof.
  intros V call plots c l sel E. unfold mpl_plot, settings_from_selector. rewrite E. cbn [bind]. split.
  - intros N. destruct (find (fun s => String.eqb (s_selector s) sel) l) as [s|] eqn:F; [|reflexivity].
    apply find_some in F. destruct F as [I Q]. apply String.eqb_eq in Q. exfalso. apply (N s I Q).
  - intros u s v -> S N.
    assert (F : find (fun s => String.eqb (s_selector s) sel) (u ++ s :: v) = Some s).
    { clear E. induction u as [|g u IH]; simpl.
      - rewrite S, String.eqb_refl. auto.
      - destruct (String.eqb_spec (s_selector g) sel) as [Q|Q]; [exfalso; apply (N g); simpl; auto|]. apply IH. intros; apply N; simpl; auto. }
    rewrite F. cbn [of_option bind]. split.
    + intros T. destruct (s_type s) as [t|]; auto.
      repeat (match goal with |- match match ?x with _ => _ end with _ => _ end = _ => destruct x | |- match ?x with _ => _ end = _ => destruct x end; auto; try congruence).
    + intros T M. rewrite T. cbv iota. unfold call_method. destruct (String.eqb_spec (s_method s) ""); [tauto|]. split.
      * intros e X. rewrite X. auto.
      * intros d X. rewrite X. cbn [bind]. split; [intros ->; auto|intros r ->; auto].
Qed.

Print Assumptions C60_settings.
Print Assumptions C60_displays.
Print Assumptions C60_first.
Print Assumptions C60_tree.
Print Assumptions C60_no_source.
Print Assumptions C60_unserialised.
Print Assumptions C60_pictures_refuted.
Print Assumptions C60_renamed_refuted.
Print Assumptions C60_stacked.
Print Assumptions C60_selector_refuted.
Print Assumptions C60_mpl_plot.

(** A class with a plot, a markdown and a picture; the plot fails. *)
Example C60_example :
  let c := [method "to_text" [deco "markdown_view" (View Markdown (Some "Text") true)]; method "photo" [deco "picture_view" (View Picture None false)];
            method "plot" [{| written := Attribute "plot_data_view"; does := View PlotData None false |}]] in
  (forall m, In m c -> ordinary m) /\
  displays nat 0 (fun n => Nat.ltb 0 n) (fun m => if String.eqb m "plot" then Err ZeroDivisionError else Ok 5) Ok (fun n => Ok (n + 1)) c
  = Ok [{| d_type := Some "plot_data"; d_data := 0; d_traceback := Some ZeroDivisionError |};
        {| d_type := Some "markdown"; d_data := 6; d_traceback := None |};
        {| d_type := Some "tree"; d_data := 0; d_traceback := Some AttributeError |}].
Proof.
  split; [|vm_compute; reflexivity].
  intros m [<-|[<-|[<-|[]]]]; eexists; (split; [reflexivity|]; split;
    [intros x [<-|[]]; eexists; split; [simpl; eauto|reflexivity] | right; exists []; do 2 eexists; split; [reflexivity|intros x []]]).
Qed.

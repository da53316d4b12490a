(** The exports of an object (C61). *)
From Coq Require Import Bool Arith String List Lia.
From Verif Require Import Base BaseProofs DisplayModel DisplayProofs ExportModel ExportSpec ExportProofs.
Import ListNotations.
Local Open Scope string_scope.

(** The generic formats, one for each method that is decorated as an export, and the archive. *)
Theorem C61_formats : forall c, (forall m, In m c -> ordinary_method m) -> NoDup (map key c) ->
  exists l, export_formats Object c
      = Ok ([{| f_selector := "json"; f_extension := "json"; f_method := "save_to_stream"; f_text := true; f_name := ""; f_block := None |};
             {| f_selector := "xlsx"; f_extension := "xlsx"; f_method := "to_xlsx_stream"; f_text := false; f_name := ""; f_block := None |};
             {| f_selector := "docx"; f_extension := "docx"; f_method := "to_docx_stream"; f_text := false; f_name := ""; f_block := None |}]
            ++ l ++ [{| f_selector := "zip"; f_extension := "zip"; f_method := "to_zip_stream"; f_text := false; f_name := ""; f_block := None |}])%list
    /\ (forall f, In f l <-> exists m sel ext t, In m c /\ exported m sel ext t
          /\ f = {| f_selector := if String.eqb sel "" then ext else sel; f_extension := ext; f_method := key m; f_text := t; f_name := ""; f_block := None |})
    /\ NoDup (map f_method l).
Proof.
  intros c H ND. unfold export_formats, object_formats, formats_from_decorators. cbn [mapM].
  set (all := ["export_decorator"; "export_step"; "export_stl"; "export_html"; "export_docx"; "export_xlsx"]).
  assert (K : forall ns, incl ns all -> NoDup ns -> exists ls, mapM (formats_from_decorator_name c) ns = Ok ls
     /\ (forall f, In f (List.concat ls) <-> exists m sel ext t d, In m c /\ In d (decos m) /\ In (head_name d) ns /\ does d = Exporter sel ext t
                          /\ f = the_format (key m) sel ext t)
     /\ NoDup (map f_method (List.concat ls))).
  { induction ns as [|n ns IH]; intros IN NN.
    - exists []. split; auto. split; [|constructor]. simpl. intros f. split; [tauto|]. intros [m [sel [ext [t [d [_ [_ [[] _]]]]]]]].
    - inversion NN as [|? ? N1 N2]; subst. destruct IH as [ls [E [I1 I2]]]; auto; [intros x X; apply IN; simpl; auto|].
      destruct (formats_from_name c n H ND (IN n (or_introl eq_refl))) as [l [E' [J1 J2]]].
      exists (l :: ls). cbn [mapM]. rewrite E', E. cbn [bind List.concat]. split; auto. split.
      + intros f. rewrite in_app_iff, J2, I1. split.
        * intros [[m [sel [ext [t [d [A [B [C [D F]]]]]]]]]|[m [sel [ext [t [d [A [B [C [D F]]]]]]]]]]; exists m, sel, ext, t, d; simpl; auto 10.
        * intros [m [sel [ext [t [d [A [B [[C|C] [D F]]]]]]]]]; [left|right]; exists m, sel, ext, t, d; auto 10.
      + rewrite map_app. assert (NL : NoDup (map f_method l)).
        { rewrite J1. unfold with_name. clear - ND. induction c as [|m c IH]; simpl; [constructor|]. inversion ND; subst.
          destruct (memb _ _ _); simpl; auto. constructor; auto. intros X. apply in_map_iff in X. destruct X as [y [E X]]. apply filter_In in X.
          match goal with H : ~ In _ _ |- _ => apply H end. rewrite <- E. apply in_map. tauto. }
        assert (DJ : forall x, In x (map f_method l) -> ~ In x (map f_method (List.concat ls))).
        { intros x X Y. apply in_map_iff in X, Y. destruct X as [f [X1 X2]], Y as [g [Y1 Y2]]. apply J2 in X2. apply I1 in Y2.
          destruct X2 as [m [sel [ext [t [d [A [B [C [D F]]]]]]]]], Y2 as [m' [sel' [ext' [t' [d' [A' [B' [C' [D' F']]]]]]]]].
          subst f g x. simpl in Y1. assert (m' = m).
          { pose proof (found c m ND A) as F1. pose proof (found c m' ND A') as F2. rewrite Y1 in F2. congruence. }
          subst m'. destruct (one_export m sel ext t d (H m A) B D) as [_ U]. assert (d' = d) by (apply U; auto; rewrite D'; discriminate).
          subst d'. rewrite C in C'. auto. }
        clear - NL I2 DJ. induction (map f_method l) as [|x xs IHl]; simpl; auto. inversion NL; subst. constructor.
        * rewrite in_app_iff. intros [X|X]; [tauto|]. apply (DJ x); simpl; auto.
        * apply IHl; auto. intros y Y. apply DJ. simpl; auto. }
  assert (NA : NoDup all) by (unfold all; repeat constructor; simpl; intuition discriminate).
  destruct (K all (incl_refl _) NA) as [ls [E [I1 I2]]]. unfold all in E. cbn [mapM] in E.
  match type of E with ?a = _ => match goal with |- context [bind ?b _] => change b with (let* ls := a in Ok (List.concat ls)) || idtac end end.
  rewrite E. cbn [bind]. exists (List.concat ls). split; [reflexivity|]. split; auto.
  intros f. rewrite I1. split.
  - intros [m [sel [ext [t [d [A [B [C [D F]]]]]]]]]. exists m, sel, ext, t. split; auto. split; auto.
    exists (decos m), d. split; [apply method_source; auto|]. auto.
  - intros [m [sel [ext [t [A [[ds [d [S [B D]]]] F]]]]]]. exists m, sel, ext, t, d. split; auto.
    assert (B' : In d (decos m)) by (unfold decos; rewrite S; auto). split; auto. split; [|split; auto].
    destruct (method_own m d (H m A) B') as [id [W X]]. rewrite D in X. unfold head_name. destruct W as [-> | ->]; exact X.
Qed.

(** A file has the extension of the first format with the selector, and what its method writes. *)
Theorem C61_file : forall write block_stream k c l sel path, export_formats k c = Ok l ->
  ((forall f, In f l -> f_selector f <> sel) -> save_export_to_file write block_stream k c sel path = Err ValueError)
  /\ (forall f, first_format sel f l -> exists p,
        (exists q, p = q ++ "." ++ f_extension f) /\ (p = path \/ p = path ++ "." ++ f_extension f)
        /\ (p <> path -> forall q, path <> q ++ "." ++ f_extension f)
        /\ (f_method f <> "to_zip_stream" -> f_method f <> "export" ->
            save_export_to_file write block_stream k c sel path
            = let* s := write (f_method f) {| device_of := Opened (f_text f); filename := p; content_of := Data "" |} in
              Ok (p, content_of s))
        /\ (f_method f = "to_zip_stream" -> forall q d, save_export_to_file write block_stream k c sel path = Ok (q, d) ->
            q = p /\ exists name z, to_zip write block_stream k c name = Ok (z, d))).
Proof.
  intros write bs k c l sel path E. unfold save_export_to_file. rewrite E. cbn [bind]. split.
  - intros N. destruct (find (fun f => String.eqb (f_selector f) sel) l) as [f|] eqn:F; auto.
    apply find_some in F. destruct F as [I S]. apply String.eqb_eq in S. exfalso. apply (N f I S).
  - intros f [u [v [-> [S N]]]].
    assert (F : find (fun f => String.eqb (f_selector f) sel) (u ++ f :: v) = Some f).
    { clear E. induction u as [|g u IH]; simpl.
      - rewrite S, String.eqb_refl. auto.
      - destruct (String.eqb_spec (f_selector g) sel) as [Q|Q]; [exfalso; apply (N g); simpl; auto|]. apply IH. intros; apply N; simpl; auto. }
    rewrite F. set (p := if ends_with path ("." ++ f_extension f) then path else path ++ "." ++ f_extension f).
    exists p. split; [|split; [|split; [|split]]].
    + unfold p. destruct (ends_with path ("." ++ f_extension f)) eqn:W; [apply ends_with_iff; auto|eauto].
    + unfold p. destruct (ends_with path ("." ++ f_extension f)); auto.
    + intros NP q Q. apply NP. unfold p. assert (ends_with path ("." ++ f_extension f) = true) as -> by (apply ends_with_iff; eauto). auto.
    + intros NZ NE. cbv zeta. destruct (String.eqb_spec (f_method f) "to_zip_stream"); [tauto|].
      unfold call. destruct (String.eqb_spec (f_method f) "export"); [tauto|]. destruct k; reflexivity.
    + intros Z q d. cbv zeta. rewrite Z. change (String.eqb "to_zip_stream" "to_zip_stream") with true. cbv iota. unfold to_zip, to_zip_stream.
      destruct (zip_settings write bs k c); cbn [bind]; [|discriminate].
      destruct (foldM _ _ _) as [es|]; cbn [bind fst content_of]; [|discriminate]. intros Q. inversion Q; subst. split; auto.
      exists "", ".zip". reflexivity.
Qed.

(** The archive has a file for each format but archives, named export with its extension. *)
Theorem C61_zip : forall write block_stream c k l, only_writes write ->
  match k with Object | Physical | Workflow => True | _ => False end -> export_formats k c = Ok l ->
  forall archive,
  (forall z r, to_zip_stream write block_stream k c archive = Ok (z, r) ->
     filename z = "export_zip" /\ device_of z = device_of archive /\ r <> TheArchive /\
     exists entries, content_of z = Zip entries /\
       Forall2 (fun f e => fst e = "export." ++ f_extension f /\
                  exists s, write (f_method f) {| device_of := if f_text f then StringFile else BinaryFile;
                                                 filename := "export." ++ f_extension f; content_of := Data "" |} = Ok s
                            /\ snd e = content_of s)
               (filter not_zip l) entries)
  /\ ((forall f d n, In f (filter not_zip l) -> is_ok (write (f_method f) {| device_of := d; filename := n; content_of := Data "" |}) = true) ->
      is_ok (to_zip_stream write block_stream k c archive) = true).
Proof.
  intros write bs c k l OW K E archive. unfold to_zip_stream.
  assert (Z : zip_settings write bs k c = mapM (fun f => write (f_method f) (new (stream_for (f_text f)) ("export." ++ f_extension f))) (filter not_zip l)).
  { destruct k; try tauto; unfold zip_settings; rewrite E; cbn [bind]; reflexivity. }
  rewrite Z. split.
  - intros z r X. destruct (mapM _ (filter not_zip l)) as [ss|] eqn:M; cbn [bind] in X; [|discriminate].
    assert (F : Forall2 (fun f s => write (f_method f) (new (stream_for (f_text f)) ("export." ++ f_extension f)) = Ok s) (filter not_zip l) ss).
    { apply mapM_ok_inv in M. exact M. }
    assert (G : forall s, In s ss -> device_of s = StringFile \/ device_of s = BinaryFile).
    { clear - F OW. induction F as [|f s fs ss W F IH]; simpl; [tauto|]. intros x [<-|I]; auto.
      apply OW in W. destruct W as [-> _]. simpl. destruct (f_text f); auto. }
    destruct (foldM (fun es s => generate_archive es (Some s)) ss []) as [es|] eqn:A; cbn [bind] in X; [|discriminate].
    apply (archive_fold ss es [] G) in A. simpl in A.
    inversion X; subst z r. simpl. split; auto. split; auto. split.
    + assert (NE : es <> []).
      { intros N. rewrite N in A. symmetry in A. apply map_eq_nil in A. subst ss. inversion F as [Q|]. clear - E Q K.
        unfold export_formats, object_formats in E. destruct (formats_from_decorators c); cbn [bind] in E; [|discriminate].
        destruct k; try tauto; inversion E; subst l; discriminate. }
      destruct (rev es) as [|e r] eqn:R; [|discriminate]. exfalso. apply NE. rewrite <- (rev_involutive es), R. auto.
    + exists es. split; auto. subst es. clear - F OW. induction F as [|f s fs ss W F IH]; simpl; constructor; auto.
      simpl. destruct (OW _ _ _ W) as [_ N]. split; [exact N|]. exists s. split; auto.
  - intros T. assert (M : exists ss, mapM (fun f => write (f_method f) (new (stream_for (f_text f)) ("export." ++ f_extension f))) (filter not_zip l) = Ok ss).
    { clear Z. induction (filter not_zip l) as [|f fs IH]; [exists []; auto|]. cbn [mapM].
      destruct IH as [ss M]; [intros; apply T; simpl; auto|]. rewrite M.
      pose proof (T f (stream_for (f_text f)) ("export." ++ f_extension f) (or_introl eq_refl)) as Q. unfold new.
      destruct (write (f_method f) _) as [s|]; [|discriminate Q]. cbn [bind]. eauto. }
    destruct M as [ss M]. rewrite M. cbn [bind].
    assert (G : forall s, In s ss -> device_of s = StringFile \/ device_of s = BinaryFile).
    { apply mapM_ok_inv in M. clear - M OW. induction M as [|f s fs ss W F IH]; simpl; [tauto|]. intros x [<-|I]; auto.
      apply OW in W. destruct W as [-> _]. simpl. destruct (f_text f); auto. }
    destruct (archive_fold ss (map (fun s => (filename s, content_of s)) ss) [] G) as [_ Q]. rewrite Q by auto. reflexivity.
Qed.

(** Reading the archive by name gives each export when extensions are distinct. *)
Theorem C61_zip_read : forall write block_stream c k l, only_writes write ->
  match k with Object | Physical | Workflow => True | _ => False end -> export_formats k c = Ok l ->
  NoDup (map f_extension (filter not_zip l)) ->
  forall archive z r, to_zip_stream write block_stream k c archive = Ok (z, r) ->
  exists entries, content_of z = Zip entries /\
    forall f, In f l -> f_extension f <> "zip" ->
      exists s, write (f_method f) {| device_of := if f_text f then StringFile else BinaryFile;
                                      filename := "export." ++ f_extension f; content_of := Data "" |} = Ok s
                /\ read entries ("export." ++ f_extension f) = Some (content_of s).
Proof.
  intros write bs c k l OW K E ND archive z r X.
  destruct (C61_zip write bs c k l OW K E archive) as [A _]. destruct (A z r X) as [_ [_ [_ [es [C F]]]]].
  exists es. split; auto. intros f I NZ.
  assert (I' : In f (filter not_zip l)).
  { apply filter_In. split; auto. unfold not_zip. destruct (String.eqb_spec (f_extension f) "zip"); auto. }
  assert (M : map fst es = map (fun x => "export." ++ x) (map f_extension (filter not_zip l))).
  { clear - F. induction F as [|g e gs es H F IH]; auto. cbn [map]. rewrite IH. destruct H as [-> _]. auto. }
  assert (NF : NoDup (map fst es)).
  { rewrite M. clear - ND. induction (map f_extension (filter not_zip l)) as [|x xs IH]; [constructor|]. inversion ND; subst. cbn [map]. constructor; auto.
    intros Y. apply in_map_iff in Y. destruct Y as [y [E Y]]. simpl in E. inversion E; subst. tauto. }
  assert (G : exists e, In e es /\ fst e = "export." ++ f_extension f /\ exists s, write (f_method f) {| device_of := if f_text f then StringFile else BinaryFile;
                                      filename := "export." ++ f_extension f; content_of := Data "" |} = Ok s /\ snd e = content_of s).
  { clear - F I'. induction F as [|g e gs es H F IH]; [destruct I'|]. destruct I' as [->|I'].
    - exists e. simpl. tauto.
    - destruct (IH I') as [e' [J Q]]. exists e'. simpl; auto. }
  destruct G as [e [J [FE [s [W SE]]]]]. exists s. split; auto. rewrite <- FE, <- SE. apply read_nodup; auto.
Qed.

(** to_zip writes the same archive under the path, with the extension added only when missing. *)
Theorem C61_to_zip : forall write block_stream k c path,
  (is_ok (to_zip write block_stream k c path) = true <-> is_ok (to_zip_stream write block_stream k c {| device_of := BinaryFile; filename := ""; content_of := Data "" |}) = true)
  /\ forall p d, to_zip write block_stream k c path = Ok (p, d) ->
     (exists q, p = q ++ ".zip") /\ (p = path /\ (exists q, path = q ++ ".zip") \/ p = path ++ ".zip" /\ forall q, path <> q ++ ".zip")
     /\ exists z r, to_zip_stream write block_stream k c {| device_of := BinaryFile; filename := ""; content_of := Data "" |} = Ok (z, r) /\ d = content_of z.
Proof.
  intros write bs k c path. unfold to_zip, new. destruct (to_zip_stream _ _ _ _ _) as [[z r]|]; cbn [bind fst is_ok]; split; try tauto; try discriminate.
  intros p d Q. inversion Q; subst. clear Q. destruct (ends_with path ".zip") eqn:W.
  - apply ends_with_iff in W. split; auto. split; eauto.
  - split; [eauto|]. split; [|eauto]. right. split; auto. intros q E. assert (ends_with path ".zip" = true) by (apply ends_with_iff; eauto). congruence.
Qed.

(** Two exports with one extension: the archive has both, one of them cannot be read. *)
Definition deco (n : string) (e : effect) : decorator := {| written := Name n; does := e |}.
Definition method (n : string) (ds : list decorator) : member := {| key := n; source_of := Ok (Def n ds) |}.
Definition writes_name (m : string) (s : stream) : res stream :=
  Ok {| device_of := device_of s; filename := filename s; content_of := Data m |}.
Lemma writes_name_only : only_writes writes_name.
Proof. intros m s s' H. inversion H. auto. Qed.

Theorem C61_zip_lost_refuted : ~ (forall write block_stream c l archive z r es, only_writes write ->
    (forall m, In m c -> ordinary_method m) -> NoDup (map key c) ->
    export_formats Object c = Ok l -> to_zip_stream write block_stream Object c archive = Ok (z, r) -> content_of z = Zip es ->
    forall f, In f l -> f_extension f <> "zip" ->
      exists name s, write (f_method f) {| device_of := if f_text f then StringFile else BinaryFile;
                                      filename := "export." ++ f_extension f; content_of := Data "" |} = Ok s
                /\ read es name = Some (content_of s)).
Proof.
  intros H. set (c := [method "raw" [deco "export_decorator" (Exporter "Raw" "json" true)]]).
  assert (O : forall m, In m c -> ordinary_method m).
  { intros m [<-|[]]. eexists. split; [reflexivity|]. split.
    - intros d [<-|[]]. exists "export_decorator". simpl. auto.
    - right. exists []. do 2 eexists. split; [reflexivity|]. intros x []. }
  assert (N : NoDup (map key c)) by (repeat constructor; simpl; tauto).
  specialize (H writes_name (fun _ => Err KeyError) c _ (new BinaryFile "") _ _ _ writes_name_only O N eq_refl eq_refl eq_refl).
  destruct (H (generic "json" "json" "save_to_stream" true) (or_introl eq_refl) ltac:(discriminate)) as [name [s [W R]]].
  simpl in W. inversion W; subst s. cbn [content_of] in R.
  unfold read in R. cbn [rev app fst find option_map] in R.
  repeat (destruct (String.eqb _ name) in R; [discriminate R|]). discriminate R.
Qed.

(** An export with the selector of a generic one is never used. *)
Theorem C61_shadowed_refuted : ~ (forall write block_stream c m sel ext t path, only_writes write ->
    (forall m, In m c -> ordinary_method m) -> NoDup (map key c) -> In m c -> exported m sel ext t ->
    exists p s, write (key m) s = Ok s /\ save_export_to_file write block_stream Object c sel path = Ok (p, content_of s)).
Proof.
  intros H. set (c := [method "own" [deco "export_decorator" (Exporter "json" "json" true)]]).
  destruct (H writes_name (fun _ => Err KeyError) c (method "own" [deco "export_decorator" (Exporter "json" "json" true)]) "json" "json" true "a.json") as [p [s [W S]]].
  - apply writes_name_only.
  - intros m [<-|[]]. eexists. split; [reflexivity|]. split.
    + intros d [<-|[]]. exists "export_decorator". simpl. auto.
    + right. exists []. do 2 eexists. split; [reflexivity|]. intros x [].
  - repeat constructor; simpl; tauto.
  - simpl; auto.
  - eexists. eexists. split; [reflexivity|]. simpl; auto.
  - vm_compute in S. inversion W as [Q]. rewrite <- Q in S. cbn in S. discriminate S.
Qed.

(** The formats of physical objects, workflows, states and runs, after those of any object. *)
Theorem C61_kinds : forall c l blocks, export_formats Object c = Ok l ->
  (exists l', export_formats Physical c = Ok (l ++ l')%list
     /\ map (fun f => (f_selector f, f_extension f, f_method f, f_text f)) l'
        = [("step", "step", "to_step_stream", true); ("stl", "stl", "to_stl_stream", false); ("html", "html", "to_html_stream", true)])
  /\ (exists f, export_formats Workflow c = Ok (l ++ [f])%list /\ export_formats (Run blocks) c = Ok (l ++ blocks ++ [f])%list
     /\ f_selector f = "py" /\ f_extension f = "py" /\ f_method f = "save_script_to_stream" /\ f_text f = true)
  /\ export_formats (State blocks) c = Ok (l ++ blocks)%list.
Proof.
  intros c l blocks. unfold export_formats. destruct (object_formats c) as [l0|]; cbn [bind]; [|discriminate].
  intros Q; inversion Q; subst l0. split; [|split; auto].
  - eexists. split; reflexivity.
  - eexists. split; [reflexivity|]. split; [reflexivity|]. auto.
Qed.

(** The decorators of exports: extension, and whether the stream is of text. *)
Theorem C61_decorators : forall (p : string -> effect) deco_name ext t,
  In (p, deco_name, ext, t) [(export_step, "export_step", "step", true); (export_stl, "export_stl", "stl", false);
    (export_html, "export_html", "html", true); (export_docx, "export_docx", "docx", true); (export_xlsx, "export_xlsx", "xlsx", false)] ->
  forall n sel, exists l, export_formats Object [method n [deco deco_name (p sel)]] = Ok l
    /\ In {| f_selector := if String.eqb sel "" then ext else sel; f_extension := ext; f_method := n; f_text := t; f_name := ""; f_block := None |} l.
Proof.
  intros p dn ext t I n sel.
  assert (O : forall m, In m [method n [deco dn (p sel)]] -> ordinary_method m).
  { intros m [<-|[]]. eexists. split; [reflexivity|]. split.
    - intros d [<-|[]]. exists dn. split; [simpl; auto|]. simpl in I.
      destruct I as [Q|[Q|[Q|[Q|[Q|[]]]]]]; inversion Q; simpl; auto 10.
    - right. exists []. do 2 eexists. split; [reflexivity|]. intros x []. }
  destruct (C61_formats _ O ltac:(repeat constructor; simpl; tauto)) as [l [E [M _]]]. eexists. split; [exact E|].
  apply in_or_app. right. apply in_or_app. left. apply M. exists (method n [deco dn (p sel)]), sel, ext, t. split; [simpl; auto|]. split; [|reflexivity].
  do 2 eexists. split; [reflexivity|]. split; [simpl; auto|]. cbn [does deco].
  destruct I as [Q|[Q|[Q|[Q|[Q|[]]]]]]; inversion Q; reflexivity.
Qed.

(** A document decorated with export_docx is written to a text stream, unlike the generic one:
    a method that writes bytes fails. *)
Theorem C61_docx : forall write block_stream n sel path,
  n <> "to_zip_stream" ->
  (forall s, device_of s = StringFile \/ device_of s = Opened true -> write n s = Err TypeError) ->
  sel <> "" -> ~ In sel ["json"; "xlsx"; "docx"] ->
  save_export_to_file write block_stream Object [method n [deco "export_docx" (export_docx sel)]] sel path = Err TypeError
  /\ is_ok (to_zip write block_stream Object [method n [deco "export_docx" (export_docx sel)]] path) = false.
Proof.
  intros write bs n sel path NZ W NE NI.
  assert (E : export_formats Object [method n [deco "export_docx" (export_docx sel)]]
    = Ok [generic "json" "json" "save_to_stream" true; generic "xlsx" "xlsx" "to_xlsx_stream" false; generic "docx" "docx" "to_docx_stream" false;
          generic sel "docx" n true; generic "zip" "zip" "to_zip_stream" false]).
  { assert (D : forall dn, get_decorated_methods [method n [deco "export_docx" (export_docx sel)]] dn
        = Ok (map (fun m => (key m, metadata_of (key m) (decos m)))
            (filter (fun m => memb String.eqb dn (map head_name (decos m))) [method n [deco "export_docx" (export_docx sel)]]))).
    { intros dn. apply decorated_export.
      - intros m [<-|[]]. eexists. split; [reflexivity|]. split.
        + intros d [<-|[]]. exists "export_docx". simpl. auto 10.
        + right. exists []. do 2 eexists. split; [reflexivity|]. intros x [].
      - repeat constructor; simpl; tauto. }
    unfold export_formats, object_formats, formats_from_decorators, formats_from_decorator_name. cbn [mapM]. rewrite !D. clear D.
    cbn -[String.eqb]. cbn.
    destruct (String.eqb_spec sel ""); [tauto|]. reflexivity. }
  split.
  - unfold save_export_to_file. rewrite E. cbn [bind find f_selector generic].
    destruct (String.eqb_spec "json" sel) as [Q|_]; [exfalso; apply NI; simpl; auto|].
    destruct (String.eqb_spec "xlsx" sel) as [Q|_]; [exfalso; apply NI; simpl; auto|].
    destruct (String.eqb_spec "docx" sel) as [Q|_]; [exfalso; apply NI; simpl; auto|].
    rewrite String.eqb_refl. cbn [f_method generic f_text f_extension f_block]. destruct (String.eqb_spec n "to_zip_stream"); [tauto|].
    unfold call. rewrite W by (right; reflexivity). reflexivity.
  - unfold to_zip, to_zip_stream, zip_settings. rewrite E. cbn [bind filter f_extension generic].
    change (String.eqb "json" "zip") with false. change (String.eqb "xlsx" "zip") with false. change (String.eqb "docx" "zip") with false. change (String.eqb "zip" "zip") with true.
    cbn [negb]. cbn [mapM f_method generic f_text f_extension call].
    destruct (write "save_to_stream" _); cbn [bind]; auto.
    destruct (write "to_xlsx_stream" _); cbn [bind]; auto.
    destruct (write "to_docx_stream" _); cbn [bind]; auto.
    rewrite W by (left; reflexivity). auto.
Qed.

(** A state of a workflow with an export block has no archive. *)
Theorem C61_state_zip : forall write block_stream c blocks archive sel ext name t i, ext <> "zip" ->
  In (block_format sel ext name t i) blocks ->
  is_ok (to_zip_stream write block_stream (State blocks) c archive) = false.
Proof.
  intros write bs c blocks archive sel ext name t i NZ I. unfold to_zip_stream, zip_settings.
  destruct (export_formats (State blocks) c) as [l|] eqn:E; auto. cbn [bind].
  assert (J : In (block_format sel ext name t i) (filter (fun f => negb (String.eqb (f_extension f) "zip")) l)).
  { apply filter_In. split.
    - unfold export_formats in E. destruct (object_formats c); cbn [bind] in E; [|discriminate]. inversion E. apply in_or_app. auto.
    - cbn. destruct (String.eqb_spec ext "zip"); auto. }
  match goal with |- is_ok (bind ?m _) = _ => assert (M : is_ok m = false) end.
  { induction (filter (fun f => negb (String.eqb (f_extension f) "zip")) l) as [|f fs IH]; [destruct J|]. cbn [mapM]. destruct J as [->|J].
    - reflexivity.
    - destruct (call write bs (State blocks) (f_method f) _ None); cbn [bind]; auto. specialize (IH J).
      destruct (mapM _ fs); [discriminate|auto]. }
  destruct (mapM _ _); [discriminate|auto].
Qed.

(** The archive of a run has the files of its export blocks but archives, under their names. *)
Theorem C61_run_zip : forall write block_stream c blocks archive,
  (forall f, In f blocks -> exists sel ext name t i s, f = block_format sel ext name t i
     /\ block_stream i = Ok s /\ device_of s = if t then StringFile else BinaryFile) ->
  exists z r entries, to_zip_stream write block_stream (Run blocks) c archive = Ok (z, r)
    /\ filename z = "export_zip" /\ content_of z = Zip entries
    /\ Forall2 (fun f e => exists i s, f_block f = Some i /\ block_stream i = Ok s /\ e = (filename s, content_of s))
               (filter not_zip blocks) entries.
Proof.
  intros write bs c blocks archive H. unfold to_zip_stream, zip_settings.
  change (filter (fun f => negb (String.eqb (f_extension f) "zip")) blocks) with (filter not_zip blocks).
  assert (H' : forall f, In f (filter not_zip blocks) -> exists i s, f_block f = Some i /\ bs i = Ok s
     /\ call write bs (Run blocks) (f_method f) (new (stream_for (f_text f)) (f_name f)) (f_block f)
        = Ok {| device_of := stream_for (f_text f); filename := filename s; content_of := content_of s |}).
  { intros f I. apply filter_In in I. destruct (H f (proj1 I)) as [sel [ext [name [t [i [s [-> [B D]]]]]]]]. exists i, s. split; auto. split; auto.
    cbn. unfold export. rewrite B. cbn [bind]. destruct t; cbn [stream_for device_of new]; rewrite D; reflexivity. }
  clear H.
  assert (M : exists ss, mapM (fun f => call write bs (Run blocks) (f_method f) (new (stream_for (f_text f)) (f_name f)) (f_block f)) (filter not_zip blocks) = Ok ss
    /\ Forall2 (fun f s => exists i s', f_block f = Some i /\ bs i = Ok s' /\ (device_of s = StringFile \/ device_of s = BinaryFile) /\ filename s = filename s' /\ content_of s = content_of s') (filter not_zip blocks) ss).
  { revert H'. generalize (filter not_zip blocks) as fs. intros fs H'. induction fs as [|f fs IH]; [exists []; auto|]. cbn [mapM].
    destruct IH as [ss [M F]]; [intros; apply H'; simpl; auto|]. destruct (H' f (or_introl eq_refl)) as [i [s [A [B C]]]].
    rewrite C, M. cbn [bind]. eexists. split; [reflexivity|]. constructor; auto. exists i, s. split; auto. split; auto. cbn.
    split; auto. destruct (f_text f); auto. }
  destruct M as [ss [M F]]. rewrite M. cbn [bind].
  assert (G : forall s, In s ss -> device_of s = StringFile \/ device_of s = BinaryFile).
  { clear - F. induction F as [|f s fs ss W F IH]; simpl; [tauto|]. intros x [<-|I]; auto. destruct W as [i [s' [_ [_ [W _]]]]]. auto. }
  destruct (archive_fold ss (map (fun s => (filename s, content_of s)) ss) [] G) as [_ Q]. rewrite Q by auto. cbn [bind].
  do 3 eexists. split; [reflexivity|]. split; auto. split; [reflexivity|].
  clear - F. induction F as [|f s fs ss W F IH]; simpl; constructor; auto. destruct W as [i [s' [A [B [_ [-> ->]]]]]]. eauto.
Qed.

(** The export of a block to a file leaves it empty. *)
Theorem C61_block_file : forall write block_stream c blocks sel ext name t i path l e,
  export_formats (State blocks) c = Ok l -> first_format sel (block_format sel ext name t i) l -> block_stream i = Ok e ->
  exists p, save_export_to_file write block_stream (State blocks) c sel path = Ok (p, Data "").
Proof.
  intros write bs c blocks sel ext name t i path l e E [u [v [-> [_ N]]]] B. unfold save_export_to_file. rewrite E. cbn [bind].
  assert (F : find (fun f => String.eqb (f_selector f) sel) (u ++ block_format sel ext name t i :: v) = Some (block_format sel ext name t i)).
  { clear E. induction u as [|g u IH]; simpl.
    - rewrite String.eqb_refl. auto.
    - destruct (String.eqb_spec (f_selector g) sel) as [Q|Q]; [exfalso; apply (N g); simpl; auto|]. apply IH. intros; apply N; simpl; auto. }
  rewrite F. cbn -[append ends_with]. unfold export. rewrite B. cbn [bind device_of new content_of]. eauto.
Qed.

(** An Archive block stores its files in order, and refuses anything else. *)
Theorem C61_archive : forall values name,
  ((forall v, In v values -> exists s, v = Some s /\ (device_of s = StringFile \/ device_of s = BinaryFile)) ->
   exists entries, archive_evaluate values name = Ok {| device_of := BinaryFile; filename := name ++ ".zip"; content_of := Zip entries |}
     /\ Forall2 (fun v e => exists s, v = Some s /\ e = (filename s, content_of s)) values entries)
  /\ (In None values -> archive_evaluate values name = Err ValueError).
Proof.
  intros values name. unfold archive_evaluate. split.
  - intros H. assert (K : forall es0, exists es, foldM generate_archive values es0 = Ok (es0 ++ es)%list
      /\ Forall2 (fun v e => exists s, v = Some s /\ e = (filename s, content_of s)) values es).
    { induction values as [|v values IH]; intros es0.
      - exists []. rewrite app_nil_r. simpl. auto.
      - cbn [foldM]. destruct (H v (or_introl eq_refl)) as [s [-> D]].
        assert (G : generate_archive es0 (Some s) = Ok (es0 ++ [(filename s, content_of s)])%list) by (unfold generate_archive; destruct D as [-> | ->]; auto).
        rewrite G. cbn [bind]. destruct (IH (fun v I => H v (or_intror I)) (es0 ++ [(filename s, content_of s)])%list) as [es [A B]].
        exists ((filename s, content_of s) :: es). rewrite A, <- app_assoc. split; auto. constructor; eauto. }
    destruct (K []) as [es [A B]]. rewrite A. cbn [bind app]. eauto.
  - intros I. assert (K : forall es0, foldM generate_archive values es0 = Err ValueError).
    { induction values as [|v values IH]; intros es0; [destruct I|]. cbn [foldM]. destruct v as [s|]; [|reflexivity].
      destruct I as [I|I]; [discriminate|]. unfold generate_archive at 1. destruct (device_of s); cbn [bind]; auto. }
    rewrite K. auto.
Qed.

(** An Archive block fed by Export blocks stores what their methods write, as name.extension. *)
Theorem C61_archived_exports : forall write (exports : list (string * string * string * bool)) name, only_writes write ->
  (forall n e m t, In (n, e, m, t) exports -> forall s, is_ok (write m s) = true) ->
  exists streams entries,
    Forall2 (fun (x : string * string * string * bool) v => let '(n, e, m, t) := x in exists s, export_evaluate write n e m t = Ok s /\ v = Some s) exports streams
    /\ archive_evaluate streams name = Ok {| device_of := BinaryFile; filename := name ++ ".zip"; content_of := Zip entries |}
    /\ Forall2 (fun (x : string * string * string * bool) en => let '(n, e, m, t) := x in fst en = n ++ "." ++ e /\
          exists s, write m {| device_of := if t then StringFile else BinaryFile; filename := n ++ "." ++ e; content_of := Data "" |} = Ok s
                    /\ snd en = content_of s) exports entries.
Proof.
  intros write exports name OW H.
  assert (K : exists streams, Forall2 (fun (x : string * string * string * bool) v => let '(n, e, m, t) := x in exists s, export_evaluate write n e m t = Ok s /\ v = Some s) exports streams).
  { induction exports as [|[[[n e] m] t] xs IH]; [exists []; constructor|].
    destruct IH as [ss F]; [intros; eapply H; simpl; eauto|].
    pose proof (H n e m t (or_introl eq_refl) (new (stream_for t) (n ++ "." ++ e))) as W.
    destruct (write m (new (stream_for t) (n ++ "." ++ e))) as [s|] eqn:Q; [|discriminate]. exists (Some s :: ss). constructor; auto.
    exists s. unfold export_evaluate. rewrite Q. auto. }
  destruct K as [ss F]. destruct (C61_archive ss name) as [A _]. destruct A as [es [E G]].
  - clear H. induction F as [|[[[n e] m] t] v xs ss H F IH]; simpl; [tauto|]. intros y [<-|I]; auto. destruct H as [s [X ->]]. exists s. split; auto.
    apply OW in X. destruct X as [-> _]. destruct t; simpl; auto.
  - exists ss, es. split; auto. split; auto. clear - F G OW. revert es G. induction F as [|[[[n e] m] t] v xs ss H F IH]; intros es G; inversion G as [|? ? ? ? H1 H2]; subst; constructor; auto.
    destruct H as [s [X ->]], H1 as [s' [Q ->]]. inversion Q; subst s'. cbn [fst snd]. destruct (OW _ _ _ X) as [_ N]. split; [exact N|]. exists s. auto.
Qed.

Print Assumptions C61_formats.
Print Assumptions C61_file.
Print Assumptions C61_zip.
Print Assumptions C61_zip_read.
Print Assumptions C61_zip_lost_refuted.
Print Assumptions C61_shadowed_refuted.
Print Assumptions C61_docx.
Print Assumptions C61_state_zip.
Print Assumptions C61_run_zip.
Print Assumptions C61_block_file.
Print Assumptions C61_archive.
Print Assumptions C61_to_zip.
Print Assumptions C61_kinds.
Print Assumptions C61_decorators.
Print Assumptions C61_archived_exports.

(** An object with a step export, then a run with an export block and an archive block. *)
Example C61_example :
  let c := [method "shape" [deco "export_step" (export_step "")]] in
  save_export_to_file writes_name (fun _ => Err KeyError) Object c "step" "part" = Ok ("part.step", Data "shape")
  /\ to_zip writes_name (fun _ => Err KeyError) Object c "part"
     = Ok ("part.zip", Zip [("export.json", Data "save_to_stream"); ("export.xlsx", Data "to_xlsx_stream");
                            ("export.docx", Data "to_docx_stream"); ("export.step", Data "shape")])
  /\ to_zip writes_name (fun i => Ok {| device_of := StringFile; filename := "result.json"; content_of := Data "{}" |})
       (Run [block_format "Export (3)" "json" "result" true 3; block_format "Archive (4)" "zip" "archive" false 4]) c "run.zip"
     = Ok ("run.zip", Zip [("result.json", Data "{}")]).
Proof. repeat split; vm_compute; reflexivity. Qed.

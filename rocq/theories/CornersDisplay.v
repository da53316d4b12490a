(** Corners of the displays and exports of objects (C60, C61): which exceptions are raised, and decorators
    other theorems leave out. *)
From Coq Require Import Bool String List Arith.
From Verif Require Import Base DisplayModel ExportModel.
Import ListNotations.
Local Open Scope string_scope.

(** ** C60 *)
Definition deco (n : string) (e : effect) : decorator := {| written := Name n; does := e |}.
Definition method (n : string) (ds : list decorator) : member := {| key := n; source_of := Ok (Def n ds) |}.
Lemma mapM_first {A B} (f : A -> res B) e l x : In x l -> f x = Err e -> (forall y e', In y l -> f y = Err e' -> e' = e) -> mapM f l = Err e.
Proof.
  induction l as [|y l IH]; intros I E H; [destruct I|]. cbn [mapM]. destruct (f y) as [z|e'] eqn:F; cbn [bind].
  - destruct I as [->|I]; [congruence|]. rewrite IH; auto. intros; eapply H; [right|]; eauto.
  - rewrite (H y e'); auto. left; auto.
Qed.
Lemma first_settings c e : settings_from_decorator_name c "plot_data_view" = Err e -> display_settings c = Err e.
Proof. intros E. unfold display_settings, settings_from_decorators. cbn [mapM]. rewrite E. reflexivity. Qed.

(** A decorator without a name raises AttributeError, a method without a source what reading it raises. *)
Theorem C60_errors : forall c m, In m c ->
  (forall e, source_of m = Err e -> (forall m' e', In m' c -> source_of m' = Err e' -> e' = e) -> display_settings c = Err e) /\
  (forall n ds d, source_of m = Ok (Def n ds) -> In d ds -> written d = Other -> (forall m', In m' c -> exists s, source_of m' = Ok s) ->
     display_settings c = Err AttributeError).
Proof.
  intros c m I. split.
  - intros e E H. apply first_settings. unfold settings_from_decorator_name, get_decorated_methods, get_all_decorated_methods.
    rewrite (mapM_first source_of e c m I E H). reflexivity.
  - intros n ds d E D W A. apply first_settings. unfold settings_from_decorator_name, get_decorated_methods, get_all_decorated_methods.
    assert (M : exists defs, mapM source_of c = Ok defs /\ In (Def n ds) defs).
    { clear - I E A. induction c as [|x c IH]; [destruct I|]. cbn [mapM]. destruct (A x (or_introl eq_refl)) as [s S]. rewrite S. cbn [bind].
      assert (O : exists defs, mapM source_of c = Ok defs).
      { clear - A. induction c as [|y c IH]; [exists []; reflexivity|]. cbn [mapM]. destruct (A y) as [s S]; [right; left; auto|]. rewrite S.
        destruct IH as [l L]; [intros z [<-|Z]; apply A; simpl; auto|]. rewrite L. eexists; reflexivity. }
      destruct O as [defs O]. rewrite O. eexists. split; [reflexivity|]. destruct I as [->|I]; [left; congruence|].
      destruct IH as [l [L J]]; auto; [intros; apply A; right; auto|]. right. congruence. }
    destruct M as [defs [-> J]]. cbn [bind].
    match goal with |- context [mapM ?f ?l] => rewrite (mapM_first f AttributeError l (n, ds)); [reflexivity| | |] end.
    + apply in_flat_map. exists (Def n ds). split; auto. destruct ds; simpl in *; auto.
    + cbn [fst snd]. rewrite (mapM_first name_of AttributeError ds d D); [reflexivity| |].
      * unfold name_of. rewrite W. reflexivity.
      * intros y e' _. unfold name_of. destruct (written y); congruence.
    + intros y e' _. destruct (mapM name_of (snd y)) as [l|e2] eqn:Y; cbn [bind]; [discriminate|]. intros Q. injection Q as <-.
      clear - Y. induction (snd y) as [|x l IH]; cbn [mapM] in Y; [discriminate|]. unfold name_of in Y at 1.
      destruct (written x); cbn [bind] in Y; try congruence; destruct (mapM name_of l); cbn [bind] in Y; try discriminate; auto.
Qed.

(** A function that is known in the class under another name than its own has no display: its own name is
    looked for in the class. *)
Theorem C60_alias_refuted : forall k n sel load, k <> n ->
  display_settings [{| key := k; source_of := Ok (Def n [deco "plot_data_view" (View PlotData sel load)]) |}] = Err AttributeError.
Proof.
  intros k n sel load H. apply first_settings. unfold settings_from_decorator_name, get_decorated_methods. cbn.
  unfold get_attribute. cbn [find key]. apply String.eqb_neq in H. rewrite H. reflexivity.
Qed.

(** A decorator that only has the name of a view gives a setting of no type, neither serialized nor loaded. *)
Theorem C60_other_decorator : forall n, exists default tree,
  display_settings [method n [deco "plot_data_view" Nothing]]
  = Ok [default; {| s_selector := n; s_type := None; s_method := n; s_serialize := false; s_load := false |}; tree].
Proof.
  intros n. unfold display_settings, settings_from_decorators, settings_from_decorator_name, get_decorated_methods. cbn.
  unfold get_attribute, method. cbn. rewrite String.eqb_refl. cbn. do 2 eexists. reflexivity.
Qed.

(** A view that is also exported takes the selector of the export when it is written above, and the export
    that of the view when it is below. *)
Theorem C60_view_and_export : forall n sel load s e t,
  (exists default tree, display_settings [method n [deco "export_decorator" (Exporter s e t); deco "plot_data_view" (View PlotData sel load)]]
     = Ok [default; {| s_selector := s; s_type := Some "plot_data"; s_method := n; s_serialize := true; s_load := load |}; tree]) /\
  (exists l, export_formats Object [method n [deco "plot_data_view" (View PlotData (Some s) load); deco "export_decorator" (Exporter "" e t)]] = Ok l /\
     In (generic (if String.eqb s "" then e else s) e n t) l).
Proof.
  intros n sel load s e t. split.
  - unfold display_settings, settings_from_decorators, settings_from_decorator_name, get_decorated_methods. cbn.
    unfold get_attribute, method. cbn. rewrite String.eqb_refl. cbn. do 2 eexists. reflexivity.
  - unfold export_formats, object_formats, formats_from_decorators, formats_from_decorator_name, get_decorated_methods.
    cbn. unfold get_attribute, method. cbn. rewrite String.eqb_refl. cbn. eexists. split; [reflexivity|]. right. right. right. left. reflexivity.
Qed.

(** ** C61 *)
(** A state of a workflow with an export block raises TypeError when it makes its archive, if other methods succeed. *)
Theorem C61_state_zip_error : forall write block_stream c blocks archive sel ext name t i l, ext <> "zip" ->
  In (block_format sel ext name t i) blocks -> export_formats (State blocks) c = Ok l -> (forall m s, exists s', write m s = Ok s') ->
  to_zip_stream write block_stream (State blocks) c archive = Err TypeError.
Proof.
  intros write bs c blocks archive sel ext name t i l NZ I E W. unfold to_zip_stream, zip_settings. rewrite E. cbn [bind].
  match goal with |- context [mapM ?f ?l] => rewrite (mapM_first f TypeError l (block_format sel ext name t i)); [reflexivity| | |] end.
  - apply filter_In. split.
    + unfold export_formats in E. destruct (object_formats c); cbn [bind] in E; [|discriminate]. inversion E. apply in_or_app. auto.
    + cbn. destruct (String.eqb_spec ext "zip"); auto.
  - reflexivity.
  - intros f e _. cbn [call]. destruct (String.eqb (f_method f) "export"); [congruence|].
    destruct (W (f_method f) (new (stream_for (f_text f)) ("export." ++ f_extension f))) as [s' ->]. discriminate.
Qed.
(** A block whose stream is not of the kind its format says: a text format raises TypeError, a binary one AttributeError. *)
Theorem C61_wrong_kind : forall write block_stream c sel ext name (t : bool) i archive e, ext <> "zip" -> block_stream i = Ok e ->
  device_of e <> (if t then StringFile else BinaryFile) ->
  to_zip_stream write block_stream (Run [block_format sel ext name t i]) c archive = Err (if t then TypeError else AttributeError).
Proof.
  intros write bs c sel ext name t i archive e NZ B D. unfold to_zip_stream, zip_settings. cbn.
  apply String.eqb_neq in NZ. rewrite NZ. cbn. unfold export. rewrite B. cbn [bind].
  destruct t; cbn [stream_for new device_of]; destruct (device_of e); try congruence; reflexivity.
Qed.

Example corners_example :
  display_settings [{| key := "show"; source_of := Ok (Def "draw" [deco "plot_data_view" (View PlotData None true)]) |}] = Err AttributeError
  /\ display_settings [{| key := "show"; source_of := Ok (Def "show" [{| written := Other; does := Nothing |}]) |}] = Err AttributeError
  /\ to_zip_stream (fun _ s => Ok s) (fun _ => Ok (new BinaryFile "a.txt")) (Run [block_format "text" "txt" "a" true 0]) [] (new BinaryFile "")
     = Err TypeError.
Proof. repeat split. Qed.

Print Assumptions C60_errors.
Print Assumptions C60_alias_refuted.
Print Assumptions C60_other_decorator.
Print Assumptions C60_view_and_export.
Print Assumptions C61_state_zip_error.
Print Assumptions C61_wrong_kind.

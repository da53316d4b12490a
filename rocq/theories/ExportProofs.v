(** Lemmas on the exports of objects. *)
From Coq Require Import Bool Arith String List Lia.
From Verif Require Import Base BaseProofs DisplayModel DisplayProofs ExportModel ExportSpec.
Import ListNotations.
Local Open Scope string_scope.

Lemma append_length a b : String.length (a ++ b) = String.length a + String.length b.
Proof. induction a; simpl; auto. Qed.
Lemma append_assoc a b c : (a ++ b) ++ c = a ++ (b ++ c).
Proof. induction a; simpl; congruence. Qed.
Lemma substring_all s : substring 0 (String.length s) s = s.
Proof. induction s; simpl; congruence. Qed.
Lemma substring_app a b : substring (String.length a) (String.length b) (a ++ b) = b.
Proof. induction a; simpl; auto. apply substring_all. Qed.
Lemma substring_end k s : k <= String.length s -> exists q, s = q ++ substring k (String.length s - k) s.
Proof.
  revert s. induction k as [|k IH]; intros s L.
  - exists "". rewrite Nat.sub_0_r, substring_all. auto.
  - destruct s as [|a s]; simpl in L; [lia|]. destruct (IH s) as [q E]; [lia|]. exists (String a q). simpl. f_equal. exact E.
Qed.
Lemma ends_with_iff s x : ends_with s x = true <-> exists q, s = q ++ x.
Proof.
  unfold ends_with. rewrite andb_true_iff, Nat.leb_le, String.eqb_eq. split.
  - intros [L E]. destruct (substring_end (String.length s - String.length x) s) as [q Q]; [lia|].
    exists q. rewrite Q at 1. f_equal. rewrite <- E at 3. f_equal. lia.
  - intros [q ->]. rewrite append_length. split; [lia|].
    replace (String.length q + String.length x - String.length x) with (String.length q) by lia. apply substring_app.
Qed.

(** Formats of decorated methods. *)
Lemma own_export_head d : own_export d -> name_of d = Ok (head_name d).
Proof. intros [id [[E|E] _]]; unfold name_of, head_name; rewrite E; auto. Qed.
Lemma method_source m : ordinary_method m -> source_of m = Ok (Def (key m) (decos m)).
Proof. intros [ds [E _]]. unfold decos. rewrite E. auto. Qed.
Lemma method_own m d : ordinary_method m -> In d (decos m) -> own_export d.
Proof. intros [ds [E [H _]]] I. unfold decos in I. rewrite E in I. auto. Qed.
Lemma decorated_export c dn : (forall m, In m c -> ordinary_method m) -> NoDup (map key c) ->
  get_decorated_methods c dn
  = Ok (map (fun m => (key m, metadata_of (key m) (decos m)))
            (filter (fun m => memb String.eqb dn (map head_name (decos m))) c)).
Proof.
  intros H ND. apply decorated_gen; auto.
  - intros m I. apply method_source; auto.
  - intros m d I D. apply own_export_head. eapply method_own; [apply H; exact I|exact D].
Qed.

Definition format_of (m : member) : res format :=
  let x := metadata_of (key m) (decos m) in
  let* e := of_option AttributeError (extension x) in
  let* n := of_option AttributeError (method_name x) in
  let* t := of_option AttributeError (text x) in
  let s := match selector x with None => e | Some s => if String.eqb s "" then e else s end in
  Ok (generic s e n t).
Definition the_format (k sel ext : string) (t : bool) : format :=
  generic (if String.eqb sel "" then ext else sel) ext k t.
Lemma one_export m sel ext t d : ordinary_method m -> In d (decos m) -> does d = Exporter sel ext t ->
  format_of m = Ok (the_format (key m) sel ext t)
  /\ forall d', In d' (decos m) -> does d' <> Nothing -> d' = d.
Proof.
  intros [ds [E [_ O]]] I D. unfold format_of. unfold decos in *. rewrite E in *.
  destruct O as [O|[a [x [b [-> O]]]]]; [rewrite (O d I) in D; discriminate|].
  assert (X : forall y, In y (a ++ x :: b)%list -> does y <> Nothing -> y = x).
  { intros y J Y. apply in_app_or in J. destruct J as [J|[J|J]]; auto; exfalso; apply Y, O, in_or_app; auto. }
  rewrite (metadata_single _ a x b O).
  assert (d = x) by (apply X; auto; rewrite D; discriminate). subst x. unfold apply. rewrite D. split; [reflexivity|].
  intros d' J N. apply X; auto.
Qed.

Lemma mapM_arg {A B C} (f : B -> res C) (g : A -> B) l : mapM f (map g l) = mapM (fun x => f (g x)) l.
Proof. induction l; simpl; auto. rewrite IHl. auto. Qed.
Definition with_name (dn : string) (c : class) : class := filter (fun m => memb String.eqb dn (map head_name (decos m))) c.
Lemma with_name_in c dn m : (forall m, In m c -> ordinary_method m) ->
  In dn ["export_decorator"; "export_step"; "export_stl"; "export_html"; "export_docx"; "export_xlsx"] ->
  In m (with_name dn c) -> In m c /\ exists sel ext t d, In d (decos m) /\ head_name d = dn /\ does d = Exporter sel ext t.
Proof.
  intros H IN I. apply filter_In in I. destruct I as [I J]. split; auto.
  apply (memb_In String.eqb String.eqb_eq) in J. apply in_map_iff in J. destruct J as [d [E D]].
  destruct (method_own m d (H m I) D) as [id [W X]].
  assert (EI : head_name d = id) by (unfold head_name; destruct W as [-> | ->]; auto). rewrite EI in E. subst id.
  destruct (does d) as [v s l|s e t|] eqn:Q; try tauto. exists s, e, t, d. rewrite EI. auto.
Qed.
Lemma formats_from_name c dn : (forall m, In m c -> ordinary_method m) -> NoDup (map key c) ->
  In dn ["export_decorator"; "export_step"; "export_stl"; "export_html"; "export_docx"; "export_xlsx"] ->
  exists l, formats_from_decorator_name c dn = Ok l
    /\ map f_method l = map key (with_name dn c)
    /\ forall f, In f l <-> exists m sel ext t d, In m c /\ In d (decos m) /\ head_name d = dn /\ does d = Exporter sel ext t
                          /\ f = the_format (key m) sel ext t.
Proof.
  intros H ND IN. unfold formats_from_decorator_name. rewrite decorated_export by auto. cbn [bind]. fold (with_name dn c).
  set (g := fun m => match format_of m with Ok f => f | Err _ => the_format "" "" "" true end).
  assert (M : forall m, In m (with_name dn c) -> format_of m = Ok (g m) /\ f_method (g m) = key m).
  { intros m I. destruct (with_name_in c dn m H IN I) as [J [sel [ext [t [d [D [_ Q]]]]]]].
    unfold g. destruct (one_export m sel ext t d (H m J) D Q) as [-> _]. auto. }
  exists (map g (with_name dn c)). split; [|split].
  - assert (M' : forall m, In m (with_name dn c) -> format_of m = Ok (g m)) by (intros m I; apply M; auto).
    rewrite mapM_arg. exact (mapM_map format_of g _ M').
  - rewrite map_map. apply map_ext_in. intros m I. apply M; auto.
  - intros f. rewrite in_map_iff. split.
    + intros [m [<- I]]. destruct (with_name_in c dn m H IN I) as [J [sel [ext [t [d [D [N Q]]]]]]].
      exists m, sel, ext, t, d. split; auto. split; auto. split; auto. split; auto.
      unfold g. destruct (one_export m sel ext t d (H m J) D Q) as [-> _]. auto.
    + intros [m [sel [ext [t [d [J [D [N [Q ->]]]]]]]]]. exists m. split.
      * unfold g. destruct (one_export m sel ext t d (H m J) D Q) as [-> _]. auto.
      * apply filter_In. split; auto. apply (memb_In String.eqb String.eqb_eq). rewrite <- N. apply in_map; auto.
Qed.

(** Archives. *)
Lemma archive_fold l es es0 : (forall s, In s l -> device_of s = StringFile \/ device_of s = BinaryFile) ->
  foldM (fun es s => generate_archive es (Some s)) l es0 = Ok es <-> es = (es0 ++ map (fun s => (filename s, content_of s)) l)%list.
Proof.
  revert es0. induction l as [|s l IH]; intros es0 H.
  - simpl. rewrite app_nil_r. split; congruence.
  - cbn [foldM map]. unfold generate_archive at 1.
    assert (X : forall es1, es1 = (es0 ++ [(filename s, content_of s)])%list ->
      (foldM (fun es s => generate_archive es (Some s)) l es1 = Ok es <-> es = (es0 ++ (filename s, content_of s) :: map (fun s => (filename s, content_of s)) l)%list)).
    { intros es1 ->. rewrite IH by (intros; apply H; simpl; auto). rewrite <- app_assoc. simpl. tauto. }
    destruct (H s (or_introl eq_refl)) as [-> | ->]; cbn [bind]; apply X; auto.
Qed.
Lemma read_nodup es e : NoDup (map fst es) -> In e es -> read es (fst e) = Some (snd e).
Proof.
  intros ND I. unfold read.
  assert (ND' : NoDup (map fst (rev es))) by (rewrite map_rev; apply NoDup_rev; auto).
  assert (I' : In e (rev es)) by (rewrite <- in_rev; auto). clear ND I.
  induction (rev es) as [|x l IH]; simpl in *; [tauto|]. inversion ND' as [|? ? N D]; subst.
  destruct I' as [->|I]; [rewrite String.eqb_refl; auto|]. destruct (String.eqb_spec (fst x) (fst e)) as [E|E]; auto.
  exfalso. apply N. rewrite E. apply in_map; auto.
Qed.

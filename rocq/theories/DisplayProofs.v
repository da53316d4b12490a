(** Lemmas on the displays of a class. *)
From Coq Require Import Bool String List.
From Verif Require Import Base BaseProofs DisplayModel DisplaySpec.
Import ListNotations.
Local Open Scope string_scope.

Definition decos (m : member) : list decorator :=
  match source_of m with Ok (Def _ ds) => ds | _ => [] end.
Definition head_name (d : decorator) : string :=
  match written d with Name id => id | Attribute id => id | Other => "" end.

Lemma ordinary_source m : ordinary m -> source_of m = Ok (Def (key m) (decos m)).
Proof. intros [ds [E _]]. unfold decos. rewrite E. auto. Qed.
Lemma ordinary_own m d : ordinary m -> In d (decos m) -> own_name d.
Proof. intros [ds [E [H _]]] I. unfold decos in I. rewrite E in I. auto. Qed.
Lemma own_head d : own_name d -> name_of d = Ok (head_name d).
Proof. intros [id [[E|E] _]]; unfold name_of, head_name; rewrite E; auto. Qed.

Lemma mapM_map {A B} (f : A -> res B) g l : (forall x, In x l -> f x = Ok (g x)) -> mapM f l = Ok (map g l).
Proof. intros H. rewrite <- mapM_pure. apply mapM_ext. auto. Qed.

Lemma all_decorated c : (forall m, In m c -> source_of m = Ok (Def (key m) (decos m))) ->
  get_all_decorated_methods c
  = Ok (map (fun m => (key m, decos m)) (filter (fun m => match decos m with [] => false | _ => true end) c)).
Proof.
  intros H. unfold get_all_decorated_methods.
  rewrite (mapM_map source_of (fun m => Def (key m) (decos m))) by auto.
  cbn [bind]. f_equal. clear H. induction c as [|m c IH]; simpl; auto. rewrite IH. destruct (decos m) as [|d ds] eqn:D; simpl; auto. rewrite D. auto.
Qed.

Lemma found c m : NoDup (map key c) -> In m c -> find (fun x => String.eqb (key x) (key m)) c = Some m.
Proof.
  induction c as [|x c IH]; simpl; intros ND I; [tauto|]. inversion ND as [|? ? N D]; subst.
  destruct I as [->|I]; [rewrite String.eqb_refl; auto|].
  destruct (String.eqb_spec (key x) (key m)) as [E|E]; auto.
  exfalso. apply N. rewrite E. apply in_map; auto.
Qed.

Lemma decorated_gen c dn : (forall m, In m c -> source_of m = Ok (Def (key m) (decos m))) ->
  (forall m d, In m c -> In d (decos m) -> name_of d = Ok (head_name d)) -> NoDup (map key c) ->
  get_decorated_methods c dn
  = Ok (map (fun m => (key m, metadata_of (key m) (decos m)))
            (filter (fun m => memb String.eqb dn (map head_name (decos m))) c)).
Proof.
  intros H OW ND. unfold get_decorated_methods. rewrite all_decorated by auto. cbn [bind].
  rewrite (mapM_map _ (fun m => (fst m, map head_name (snd m)))).
  2: { intros m I. apply in_map_iff in I. destruct I as [x [<- J]]. apply filter_In in J. cbn [fst snd].
       rewrite (mapM_map name_of head_name); auto. intros d D. apply (OW x); tauto. }
  cbn [bind]. rewrite map_map. cbn [fst snd].
  assert (E : map fst (filter (fun m : string * list string => memb String.eqb dn (snd m))
            (map (fun x => (key x, map head_name (decos x))) (filter (fun m => match decos m with [] => false | _ => true end) c)))
          = map key (filter (fun m => memb String.eqb dn (map head_name (decos m))) c)).
  { clear. induction c as [|m c IH]; auto. cbn [filter map].
    assert (D : decos m = [] -> memb String.eqb dn (map head_name (decos m)) = false) by (intros ->; auto).
    destruct (decos m) as [|d ds] eqn:E.
    - rewrite D by auto. exact IH.
    - cbn [map filter snd]. rewrite E. cbn [map]. destruct (memb String.eqb dn (head_name d :: map head_name ds)); cbn [map fst]; [f_equal|]; exact IH. }
  rewrite E.
  assert (IN : forall m, In m (filter (fun m => memb String.eqb dn (map head_name (decos m))) c) -> In m c).
  { intros m I. apply filter_In in I. tauto. }
  revert IN. generalize (filter (fun m => memb String.eqb dn (map head_name (decos m))) c) as l. intros l IN.
  induction l as [|m l IH]; simpl; auto. rewrite IH by (intros; apply IN; simpl; auto).
  unfold get_attribute. rewrite (found c m ND) by (apply IN; simpl; auto).
  assert (S : source_of m = Ok (Def (key m) (decos m))) by (apply H, IN; simpl; auto).
  destruct m as [k s]. cbn [source_of key] in *. rewrite S. auto.
Qed.

Lemma decorated c dn : (forall m, In m c -> ordinary m) -> NoDup (map key c) ->
  get_decorated_methods c dn
  = Ok (map (fun m => (key m, metadata_of (key m) (decos m)))
            (filter (fun m => memb String.eqb dn (map head_name (decos m))) c)).
Proof.
  intros H ND. apply decorated_gen; auto.
  - intros m I. apply ordinary_source; auto.
  - intros m d I D. apply own_head. eapply ordinary_own; [apply H; exact I|exact D].
Qed.

(** The metadata of a function with one decorator that matters. *)
Lemma apply_nothing name l m : (forall x, In x l -> does x = Nothing) -> fold_left (apply name) l m = m.
Proof.
  revert m. induction l as [|d l IH]; simpl; intros m H; auto. rewrite IH by auto. unfold apply. rewrite (H d) by auto. auto.
Qed.
Lemma metadata_single name u d v : (forall x, In x (u ++ v)%list -> does x = Nothing) ->
  metadata_of name (u ++ d :: v) = apply name no_metadata d.
Proof.
  intros H. unfold metadata_of. rewrite rev_app_distr. simpl. rewrite !fold_left_app. simpl.
  rewrite (apply_nothing name (rev v)) by (intros x I; apply H, in_or_app; right; apply in_rev; auto).
  apply apply_nothing. intros x I. apply H, in_or_app. left. apply in_rev; auto.
Qed.
Definition setting_of (k : string) (v : view) (sel : option string) (load : bool) : setting :=
  {| s_selector := match sel with Some s => s | None => k end; s_type := Some (type_of v); s_method := k;
     s_serialize := serialized v; s_load := load |}.
Definition setting_of_member (m : member) : setting :=
  let x := metadata_of (key m) (decos m) in
  {| s_selector := match selector x with None => key m | Some s => s end; s_type := type_ x; s_method := key m;
     s_serialize := serialize_data x; s_load := load_by_default x |}.

Lemma from_name c dn : (forall m, In m c -> ordinary m) -> NoDup (map key c) ->
  settings_from_decorator_name c dn
  = Ok (map setting_of_member (filter (fun m => memb String.eqb dn (map head_name (decos m))) c)).
Proof.
  intros H ND. unfold settings_from_decorator_name. rewrite decorated by auto. cbn [bind]. rewrite map_map. auto.
Qed.

Definition view_name (v : view) : string :=
  match v with Picture => "picture_view" | PlotData => "plot_data_view" | Markdown => "markdown_view" | Cad => "cad_view" end.
Lemma head_view d v : own_name d -> head_name d = view_name v <-> exists sel load, does d = View v sel load.
Proof.
  intros [id [W D]]. assert (E : head_name d = id) by (unfold head_name; destruct W as [-> | ->]; auto).
  rewrite E. clear W E. destruct (does d) as [w s l|s e t|].
  - split; [intros ->|intros [s' [l' X]]]; destruct v, w; subst; simpl in *; try discriminate; eauto.
  - split; [intros ->|intros [s' [l' X]]; discriminate]. exfalso. apply D. destruct v; simpl; auto.
  - split; [intros ->|intros [s' [l' X]]; discriminate]. exfalso. apply D. destruct v; simpl; auto.
Qed.
Lemma one_view m v sel load d : ordinary m -> In d (decos m) -> does d = View v sel load ->
  setting_of_member m = setting_of (key m) v sel load
  /\ forall v' sel' load' d', In d' (decos m) -> does d' = View v' sel' load' -> v' = v /\ sel' = sel /\ load' = load.
Proof.
  intros [ds [E [_ O]]] I D. unfold setting_of_member. unfold decos in *. rewrite E in *.
  destruct O as [O|[a [x [b [-> O]]]]]; [rewrite (O d I) in D; discriminate|].
  assert (X : forall y v s l, In y (a ++ x :: b)%list -> does y = View v s l -> y = x).
  { intros y v' s' l' J Y. apply in_app_or in J. destruct J as [J|[J|J]]; auto.
    - rewrite (O y) in Y by (apply in_or_app; auto). discriminate.
    - rewrite (O y) in Y by (apply in_or_app; auto). discriminate. }
  rewrite (metadata_single _ a x b O). rewrite (X d v sel load I D) in D. unfold apply. rewrite D. split; [reflexivity|].
  intros v' sel' load' d' J D'. rewrite (X d' _ _ _ J D') in D'. rewrite D in D'. inversion D'. auto.
Qed.
Lemma filter_view c v : (forall m, In m c -> ordinary m) ->
  forall m, In m (filter (fun m => memb String.eqb (view_name v) (map head_name (decos m))) c)
  <-> In m c /\ exists sel load, has_view m v sel load.
Proof.
  intros H m. rewrite filter_In. split; intros [I J]; split; auto.
  - apply (memb_In String.eqb String.eqb_eq) in J. apply in_map_iff in J. destruct J as [d [E D]].
    apply head_view in E; [|eapply ordinary_own; eauto]. destruct E as [sel [load E]]. exists sel, load.
    exists (decos m), d. split; [apply ordinary_source; auto|]. auto.
  - destruct J as [sel [load [ds [d [S [D E]]]]]]. apply (memb_In String.eqb String.eqb_eq). apply in_map_iff. exists d.
    assert (D' : In d (decos m)) by (unfold decos; rewrite S; auto). split; auto.
    apply head_view; [eapply ordinary_own; eauto|eauto].
Qed.

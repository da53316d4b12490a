(** C40: breakdowns. *)
From Coq Require Import Ascii String List Bool Arith Lia.
From Verif Require Import Base TableModel BreakdownModel BreakdownSpec BreakdownProofs BreakdownOrder.
Import ListNotations.
Open Scope list_scope.
Open Scope nat_scope.

Section C40.
Variable same : nat -> nat -> bool.
Hypothesis same_refl : forall a, same a a = true.
Hypothesis same_sym : forall a b, same a b = true -> same b a = true.
Hypothesis same_trans : forall a b c, same a b = true -> same b c = true -> same a c = true.

(** Merging keeps every object of both, with the path of least depth, that of the first
    breakdown on ties. *)
Theorem C40_merge : forall h d1 d2, valid same h d1 -> valid same h d2 ->
  (forall c c' l, In (c, l) d1 -> In (c', l) d2 -> False) ->
  let (h', d3) := merge_breakdown_dicts same h d1 d2 in
  valid same h' d3
  /\ (forall c o, path_of same h' d3 c o =
        match path_of same h d1 c o, path_of same h d2 c o with
        | Some p, Some q => Some (if dots q <? dots p then q else p)
        | Some p, None => Some p
        | None, q => q
        end)
  /\ (forall c, In c (map fst d3) <-> In c (map fst d1) \/ In c (map fst d2)).
Proof.
  intros h d1 d2 V1 V2 D.
  pose proof (merge_spec same same_refl same_sym same_trans d2 h d1 V1 V2 D) as M.
  destruct (merge_breakdown_dicts same h d1 d2) as [h' d3]. destruct M as (V3 & _ & (extra & E & X) & P & _ & _).
  split; auto. split.
  - intros c o. rewrite P. destruct (path_of same h d1 c o) as [p|], (path_of same h d2 c o) as [q|]; simpl; auto.
    destruct (dots q <? dots p); auto.
  - intros c. rewrite E, map_app, in_app_iff. split.
    + intros [H|H]; auto. apply in_map_iff in H. destruct H as (e & <- & H). apply X in H. right. apply in_map. tauto.
    + intros [H|H]; auto. destruct (in_dec string_dec c (map fst d1)) as [I|I]; auto. right.
      apply in_map_iff in H. destruct H as (e & <- & H). apply in_map. apply X. split; auto.
      apply get_class_not. auto.
Qed.

(** The arguments are not left alone: the dictionaries of the first one are those of the
    result, and those of the second one become part of the result when their class is
    new. *)
Theorem C40_merge_arguments_refuted : forall h d1 d2, valid same h d1 -> valid same h d2 ->
  (forall c c' l, In (c, l) d1 -> In (c', l) d2 -> False) ->
  let (h', d3) := merge_breakdown_dicts same h d1 d2 in
  (forall c o, get_class d1 c <> None -> path_of same h' d1 c o = path_of same h' d3 c o)
  /\ (forall c, get_class d1 c = None -> get_class d3 c = get_class d2 c)
  /\ (forall c o, path_of same h' d2 c o = path_of same h d2 c o).
Proof.
  intros h d1 d2 V1 V2 D.
  pose proof (merge_spec same same_refl same_sym same_trans d2 h d1 V1 V2 D) as M.
  destruct (merge_breakdown_dicts same h d1 d2) as [h' d3]. destruct M as (V3 & _ & (extra & E & X) & P & F & _).
  split; [|split].
  - intros c o N. unfold path_of. rewrite E, get_class_app. destruct (get_class d1 c); congruence.
  - intros c N. destruct (get_class d2 c) as [l|] eqn:G.
    + apply in_get_class; [apply V3|]. rewrite E. apply in_app_iff. right. apply X. simpl. split; auto.
      apply get_class_in. auto.
    + apply get_class_not. rewrite E, map_app, in_app_iff. intros [H|H].
      * apply get_class_not in N. auto.
      * apply get_class_not in G. apply G. apply in_map_iff in H. destruct H as (e & <- & H).
        apply in_map, X. auto.
  - intros c o. unfold path_of. destruct (get_class d2 c) as [l|] eqn:G; auto. rewrite F; auto.
    intros c' Hc. exfalso. apply (D c' c l); auto. apply get_class_in. auto.
Qed.

(** Breaking a value down ends and gives, for each object that can be reached by some path, a
    path to it (or to an equal object) with the fewest dots; each class listed has objects,
    all of them objects of this class reached from the value, and no two of them equal. *)
Theorem C40_breakdown : forall v fuel h, height v <= fuel ->
  exists h' d, breakdown same fuel h v "" = Ok (h', d) /\ valid same h' d
  /\ (forall c o p, path_of same h' d c o = Some p ->
        exists r o', found v r c o' /\ same o' o = true /\ p = path_text r)
  /\ (forall c o r o', found v r c o' -> same o' o = true -> path_text r <> ""%string ->
        exists p, path_of same h' d c o = Some p /\ dots p <= dots (path_text r))
  /\ (forall c l, In (c, l) d -> read h' l <> [] /\
        forall o p, In (o, p) (read h' l) -> path_of same h' d c o = Some p /\ exists r, found v r c o)
  /\ (forall l, l < List.length h -> read h' l = read h l).
Proof.
  intros v fuel h H.
  destruct (breakdown_reached same same_refl same_sym same_trans fuel v h "" H) as (h' & d & E & R).
  exists h', d. split; auto. destruct R as (V & L & F & B & P & K & N). split; auto.
  assert (Pin : forall c o p, In p (paths same (visits "" v) c o) <->
            exists o', In (c, o', p) (visits "" v) /\ same o' o = true).
  { intros c o p. unfold paths. rewrite in_map_iff. split.
    - intros ([[c' o'] p'] & <- & I). apply filter_In in I. destruct I as [I T]. simpl in *.
      apply andb_true_iff in T. destruct T as [T1 T2]. apply String.eqb_eq in T1. subst c'. eauto.
    - intros (o' & I & T). exists (c, o', p). split; auto. apply filter_In. split; auto. simpl.
      rewrite String.eqb_refl, T. auto. }
  split; [|split; [|split]]; auto.
  - intros c o p Hp. rewrite P in Hp. apply best_spec in Hp. destruct Hp as (l1 & l2 & El & _ & _).
    assert (I : In p (paths same (visits "" v) c o)) by (rewrite El; apply in_app_iff; simpl; auto).
    apply Pin in I. destruct I as (o' & I & T). apply (visits_found (height v)) in I; auto.
    destruct I as (r & Fr & -> & _). exists r, o'. rewrite extend_text. auto.
  - intros c o r o' Fr T Np.
    assert (I : In (path_text r) (paths same (visits "" v) c o)).
    { apply Pin. exists o'. split; auto. apply (visits_found (height v)); auto. exists r. rewrite extend_text. auto. }
    rewrite P. destruct (best (paths same (visits "" v) c o)) as [p|] eqn:Eb.
    + exists p. split; auto. apply best_spec in Eb. destruct Eb as (l1 & l2 & El & H1 & H2). rewrite El in I.
      apply in_app_iff in I. destruct I as [I|[->|I]]; auto. specialize (H1 _ I). lia.
    + apply best_none in Eb. rewrite Eb in I. destruct I.
  - intros c l Hl. destruct V as (C & Ls & S). assert (G : get_class d c = Some l) by (apply in_get_class; auto).
    split.
    + destruct (N c l Hl) as [o Ho]. unfold path_of in Ho. rewrite G in Ho. intros En. rewrite En in Ho. apply Ho. auto.
    + intros o p Ho. apply In_nth_error in Ho. destruct Ho as [i Hi]. split.
      * unfold path_of. rewrite G. eapply get_entry; eauto. destruct (S c l Hl) as [_ Sd]. exact Sd.
      * destruct (K c l i o p Hl Hi) as [q Hq]. apply (visits_found (height v)) in Hq; auto.
        destruct Hq as (r & Fr & _). eauto.
Qed.

(** On ties, the path kept is the first in the order of the visit. *)
Theorem C40_ties : forall v fuel h h' d c o p, height v <= fuel ->
  breakdown same fuel h v "" = Ok (h', d) -> path_of same h' d c o = Some p ->
  exists before after o', visits "" v = before ++ (c, o', p) :: after /\ same o' o = true
    /\ (forall o'' q, In (c, o'', q) before -> same o'' o = true -> dots p < dots q)
    /\ (forall o'' q, In (c, o'', q) after -> same o'' o = true -> dots p <= dots q).
Proof.
  intros v fuel h h' d c o p H E Hp.
  destruct (breakdown_reached same same_refl same_sym same_trans fuel v h "" H) as (h1 & d1 & E1 & R).
  rewrite E in E1. injection E1 as <- <-. destruct R as (_ & _ & _ & _ & P & _ & _). rewrite P in Hp.
  apply best_spec in Hp. destruct Hp as (l1 & l2 & El & H1 & H2).
  clear P. unfold paths in El. revert l1 El H1. induction (visits "" v) as [|[[c' o'] q] vs IH]; intros l1 El H1.
  - destruct l1; discriminate.
  - simpl in El. destruct (String.eqb c' c && same o' o) eqn:T; simpl in El.
    + destruct l1 as [|x l1]; simpl in El; injection El as Ex El.
      * subst q. apply andb_true_iff in T. destruct T as [T1 T2]. apply String.eqb_eq in T1. subst c'.
        exists [], vs, o'. split; auto. split; auto. split; [intros ? ? []|].
        intros o'' q Hq Hs. apply H2. rewrite <- El. apply in_map_iff. exists (c, o'', q). split; auto.
        apply filter_In. split; auto. simpl. rewrite String.eqb_refl, Hs. auto.
      * destruct (IH l1 El) as (b & a & o1 & Ev & Hs & Hb & Ha); [intros y Hy; apply H1; simpl; auto|].
        exists ((c', o', q) :: b), a, o1. rewrite Ev. split; auto. split; auto. split; auto.
        intros o'' q' [Hq|Hq] Hs'; [|eauto]. injection Hq as -> -> ->. subst q'. apply H1. simpl; auto.
    + destruct (IH l1 El H1) as (b & a & o1 & Ev & Hs & Hb & Ha).
      exists ((c', o', q) :: b), a, o1. rewrite Ev. split; auto. split; auto. split; auto.
      intros o'' q' [Hq|Hq] Hs'; [|eauto]. injection Hq as -> -> ->. rewrite String.eqb_refl, Hs' in T. discriminate.
Qed.

(** What is behind empty keys only is not listed. *)
Theorem C40_empty_key_refuted : forall c o h, found (Dict [(""%string, Obj c o [])]) [""%string] c o
  /\ breakdown same 2 h (Dict [(""%string, Obj c o [])]) "" = Ok (h, []).
Proof. intros c o h. split; [econstructor; [simpl; auto|constructor]|reflexivity]. Qed.
(** Classes are in the order in which their first objects are visited, and the objects of a
    class in the order in which they, or objects equal to them, are first visited. *)
Theorem C40_order : forall v fuel h h' d, height v <= fuel -> breakdown same fuel h v "" = Ok (h', d) ->
  map fst d = dedup String.eqb [] (map (fun w => fst (fst w)) (visits "" v))
  /\ forall c l, In (c, l) d ->
       map fst (read h' l) = dedup same [] (map (fun w => snd (fst w))
                                              (filter (fun w => String.eqb (fst (fst w)) c) (visits "" v))).
Proof.
  intros v fuel h h' d H E.
  destruct (breakdown_ordered same same_refl same_sym same_trans fuel v h "" H) as (h1 & d1 & E1 & R & O1 & O2).
  rewrite E in E1. injection E1 as <- <-. split; auto. intros c l Hl.
  destruct R as ((N & _) & _). specialize (O2 c). unfold keys_of in O2. rewrite (in_get_class _ _ _ N Hl) in O2. exact O2.
Qed.
End C40.

(** Dots count keys, when keys are not empty and have none. *)
Theorem C40_keys : forall r, r <> [] -> (forall k, In k r -> k <> ""%string /\ dots k = 0) ->
  S (dots (path_text r)) = List.length r.
Proof. intros r N H. apply dots_text; auto. Qed.

Print Assumptions C40_merge.
Print Assumptions C40_merge_arguments_refuted.
Print Assumptions C40_breakdown.
Print Assumptions C40_ties.
Print Assumptions C40_empty_key_refuted.
Print Assumptions C40_order.
Print Assumptions C40_keys.

(** ** Examples *)

Open Scope string_scope.

(** The same wheel in a list, in a dictionary and in an attribute of an attribute: the path
    through the list has three keys, as the one through the attribute. *)
Definition wheel := Obj "Wheel" 1 [("radius", Plain)].
Definition car := Obj "Car" 0 [("spare", Dict [("boxes", Seq [wheel; Obj "Tool" 2 []])]);
                               ("wheels", Seq [Seq [wheel]; Plain]);
                               ("axle", Obj "Axle" 3 [("front", wheel)])].

Example C40_breakdown_example :
  breakdown Nat.eqb 10 [] car "" =
  Ok ([[(3, "axle")]; [(1, "axle.front")]; [(1, "wheels.0.0")]; [(1, "spare.boxes.0")]; [(2, "spare.boxes.1")]],
      [("Axle", 0); ("Wheel", 1); ("Tool", 4)]).
Proof. reflexivity. Qed.

(** the objects of a class in the order of the visit *)
Example C40_order_example :
  map (fun w => fst w) (visits "" car) = [("Axle", 3); ("Wheel", 1); ("Wheel", 1); ("Wheel", 1); ("Tool", 2)].
Proof. reflexivity. Qed.

(** merging changes the first argument *)
Example C40_merge_example :
  merge_breakdown_dicts Nat.eqb [[(1, "a.b.c")]; [(1, "x.y"); (2, "z")]] [("Wheel", 0)] [("Wheel", 1)]
  = ([[(1, "x.y"); (2, "z")]; [(1, "x.y"); (2, "z")]], [("Wheel", 0)]).
Proof. reflexivity. Qed.

(** a dotted key counts twice *)
Example C40_dotted_key_example :
  breakdown Nat.eqb 10 [] (Dict [("a.b.c", wheel); ("d", Seq [wheel])]) ""
  = Ok ([[(1, "d.0")]; [(1, "d.0")]], [("Wheel", 0)]).
Proof. reflexivity. Qed.

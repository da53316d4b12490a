(** The order of the classes and of the objects of a breakdown. *)
From Coq Require Import Ascii String List Bool Arith Lia.
From Verif Require Import Base TableModel TableProofs BreakdownModel BreakdownSpec BreakdownProofs.
Import ListNotations.
Open Scope list_scope.
Open Scope nat_scope.

(** ** First occurrences *)

Section Firsts.
Context {A : Type}.
Variable eqb : A -> A -> bool.
Hypothesis eqb_refl : forall a, eqb a a = true.
Hypothesis eqb_sym : forall a b, eqb a b = true -> eqb b a = true.
Hypothesis eqb_trans : forall a b c, eqb a b = true -> eqb b c = true -> eqb a c = true.

Definition fresh (seen : list A) (x : A) : bool := negb (existsb (eqb x) seen).

Lemma fresh_spec seen x : fresh seen x = false <-> exists y, In y seen /\ eqb x y = true.
Proof. unfold fresh. rewrite negb_false_iff, existsb_exists. tauto. Qed.

Lemma fresh_ext s t : (forall x, In x s <-> In x t) -> forall x, fresh s x = fresh t x.
Proof.
  intros H x. destruct (fresh s x) eqn:E, (fresh t x) eqn:F; auto.
  - apply fresh_spec in F. destruct F as (y & Hy & Ey). assert (fresh s x = false); [|congruence].
    apply fresh_spec. exists y. split; auto. apply H. auto.
  - apply fresh_spec in E. destruct E as (y & Hy & Ey). assert (fresh t x = false); [|congruence].
    apply fresh_spec. exists y. split; auto. apply H. auto.
Qed.

Lemma dedup_ext l : forall s t, (forall x, fresh s x = fresh t x) -> dedup eqb s l = dedup eqb t l.
Proof.
  induction l as [|x l IH]; intros s t H; simpl; auto.
  pose proof (H x) as Hx. unfold fresh, memb in *.
  destruct (existsb (eqb x) s), (existsb (eqb x) t); simpl in *; try discriminate; auto.
  f_equal. apply IH. intros y. unfold fresh in *. simpl. destruct (eqb y x); auto. apply H.
Qed.

Lemma dedup_filter l : forall s, dedup eqb s l = filter (fresh s) (dedup eqb [] l).
Proof.
  assert (G : forall l s t, dedup eqb (s ++ t) l = filter (fresh s) (dedup eqb t l)).
  { clear l. induction l as [|x l IH]; intros s t; simpl; auto. unfold memb.
    rewrite existsb_app.
    destruct (existsb (eqb x) t) eqn:T; [rewrite orb_true_r; apply IH|]. rewrite orb_false_r. simpl.
    unfold fresh at 1. destruct (existsb (eqb x) s) eqn:F; simpl.
    - rewrite <- IH. apply dedup_ext. intros y. unfold fresh. rewrite !existsb_app. simpl.
      destruct (eqb y x) eqn:E; [|auto]. rewrite orb_true_r.
      apply existsb_exists in F. destruct F as (z & Hz & Ez).
      assert (existsb (eqb y) s = true) as -> by (apply existsb_exists; exists z; split; eauto). auto.
    - f_equal. rewrite <- IH. apply dedup_ext. intros y. unfold fresh. simpl. rewrite !existsb_app. simpl.
      destruct (eqb y x), (existsb (eqb y) s); auto. }
  intros s. rewrite <- G. rewrite app_nil_r. auto.
Qed.

Lemma dedup_in l : forall s x, In x (dedup eqb s l) -> In x l.
Proof.
  induction l as [|y l IH]; intros s x; simpl; auto. destruct (memb eqb y s); simpl; [right; eauto|].
  intros [->|H]; auto. right. eauto.
Qed.

Lemma dedup_all l x : In x l -> exists y, In y (dedup eqb [] l) /\ eqb x y = true.
Proof.
  assert (G : forall l s, In x l -> (exists y, In y (dedup eqb s l) /\ eqb x y = true) \/ fresh s x = false).
  { clear l. induction l as [|z l IH]; intros s; simpl; [tauto|]. intros [->|H].
    - unfold memb, fresh. destruct (existsb (eqb x) s) eqn:E; [auto|]. left. exists x. simpl. auto.
    - destruct (memb eqb z s) eqn:M; [apply IH; auto|].
      destruct (IH (z :: s) H) as [(y & Hy & E)|F]; [left; exists y; simpl; auto|].
      apply fresh_spec in F. destruct F as (y & [->|Hy] & E).
      + left. exists y. simpl. auto.
      + right. apply fresh_spec. eauto. }
  intros H. destruct (G l [] H) as [?|F]; auto. discriminate.
Qed.

Lemma dedup_app l m : dedup eqb [] (l ++ m) = dedup eqb [] l ++ filter (fresh (dedup eqb [] l)) (dedup eqb [] m).
Proof.
  assert (G : forall l s, dedup eqb s (l ++ m) = dedup eqb s l ++ dedup eqb (l ++ s) m).
  { clear l. induction l as [|x l IH]; intros s; simpl; auto. destruct (memb eqb x s) eqn:M.
    - rewrite IH. f_equal. apply dedup_ext. intros y. unfold fresh. simpl. rewrite existsb_app.
      destruct (eqb y x) eqn:E; auto. unfold memb in M. apply existsb_exists in M. destruct M as (z & Hz & Ez).
      assert (existsb (eqb y) s = true) as -> by (apply existsb_exists; exists z; split; eauto).
      rewrite orb_true_r. auto.
    - simpl. f_equal. rewrite IH. f_equal. apply dedup_ext. intros y. unfold fresh. simpl. rewrite !existsb_app. simpl.
      destruct (existsb (eqb y) l), (eqb y x); auto. }
  rewrite G, app_nil_r. f_equal. rewrite dedup_filter. apply filter_ext. intros x.
  destruct (fresh l x) eqn:E, (fresh (dedup eqb [] l) x) eqn:F; auto.
  - apply fresh_spec in F. destruct F as (y & Hy & Ey). assert (fresh l x = false); [|congruence].
    apply fresh_spec. exists y. split; auto. eapply dedup_in; eauto.
  - apply fresh_spec in E. destruct E as (y & Hy & Ey). assert (fresh (dedup eqb [] l) x = false); [|congruence].
    apply fresh_spec. destruct (dedup_all l y Hy) as (z & Hz & Ez). exists z. split; eauto.
Qed.
End Firsts.

Section Same.
Variable same : nat -> nat -> bool.
Hypothesis same_refl : forall a, same a a = true.
Hypothesis same_sym : forall a b, same a b = true -> same b a = true.
Hypothesis same_trans : forall a b c, same a b = true -> same b c = true -> same a c = true.

Notation merge := (merge_breakdown_dicts same).
Notation valid := (valid same).

(** ** Keys of merged dictionaries *)

Lemma set_keys r o p : map fst (set_ref same r o p)
  = map fst r ++ filter (fresh same (map fst r)) [o].
Proof.
  induction r as [|[k q] r IH]; simpl; auto. unfold fresh in *. simpl.
  rewrite (same_comm same same_sym k o). destruct (same o k) eqn:E; simpl.
  - rewrite app_nil_r. auto.
  - rewrite IH. auto.
Qed.

Lemma get_ref_fresh r o : get_ref same r o = None <-> fresh same (map fst r) o = true.
Proof.
  unfold get_ref, fresh. induction r as [|[k q] r IH]; simpl; [tauto|].
  rewrite (same_comm same same_sym k o). destruct (same o k) eqn:E; simpl; [split; discriminate|auto].
Qed.

Lemma merge_refs_order entries : forall d, distinct same entries ->
  map fst (merge_refs same d entries) = map fst d ++ filter (fresh same (map fst d)) (map fst entries).
Proof.
  induction entries as [|[o p] entries IH]; intros d D; [simpl; rewrite app_nil_r; auto|].
  rewrite merge_refs_cons, IH by (eapply distinct_tl; eauto). cbn [fst snd].
  set (d' := match get_ref same d o with Some path => _ | None => _ end).
  assert (E : map fst d' = map fst d ++ filter (fresh same (map fst d)) [o]).
  { unfold d'. destruct (get_ref same d o) as [q|] eqn:G.
    - assert (fresh same (map fst d) o = false) as F.
      { destruct (fresh same (map fst d) o) eqn:F; auto. apply get_ref_fresh in F. congruence. }
      destruct (_ <? _); [apply set_keys|]. simpl. rewrite F, app_nil_r. auto.
    - apply set_keys. }
  rewrite E, <- app_assoc. f_equal. simpl. destruct (fresh same (map fst d) o) eqn:F; simpl.
  - f_equal. apply filter_ext_in. intros x Hx. unfold fresh. rewrite existsb_app. simpl.
    assert (same x o = false) as ->; [|rewrite orb_false_r; auto].
    destruct (same x o) eqn:Sxo; auto. exfalso. apply in_map_iff in Hx. destruct Hx as ([x' q] & <- & Hx).
    simpl in Sxo. apply In_nth_error in Hx. destruct Hx as [j Hj].
    assert (0 = S j); [|lia]. eapply (D 0 (S j) o x' p q); simpl; eauto.
  - rewrite app_nil_r. auto.
Qed.

Definition keys_of (h : store) (d : breakdown_dict) (c : string) : list nat :=
  match get_class d c with Some l => map fst (read h l) | None => [] end.

Lemma eqb_string_sym a b : String.eqb a b = true -> String.eqb b a = true.
Proof. rewrite !String.eqb_eq. auto. Qed.
Lemma eqb_string_trans a b c : String.eqb a b = true -> String.eqb b c = true -> String.eqb a c = true.
Proof. rewrite !String.eqb_eq. congruence. Qed.

Lemma get_class_fresh {A} (d : list (string * A)) c : get_class d c = None <-> fresh String.eqb (map fst d) c = true.
Proof.
  rewrite get_class_not. unfold fresh. rewrite negb_true_iff. split.
  - intros H. destruct (existsb _ _) eqn:E; auto. apply existsb_exists in E. destruct E as (y & Hy & E).
    apply String.eqb_eq in E. subst. tauto.
  - intros H I. assert (existsb (String.eqb c) (map fst d) = true); [|congruence].
    apply existsb_exists. exists c. split; auto. apply String.eqb_refl.
Qed.

Lemma filter_true {A} (f : A -> bool) l : (forall x, In x l -> f x = true) -> filter f l = l.
Proof.
  induction l as [|x l IH]; simpl; intros H; auto. rewrite H by auto. f_equal. auto.
Qed.

Lemma merge_order d2 : forall h d1, valid h d1 -> valid h d2 ->
  (forall c c' l, In (c, l) d1 -> In (c', l) d2 -> False) ->
  let (h', d3) := merge h d1 d2 in
  map fst d3 = map fst d1 ++ filter (fresh String.eqb (map fst d1)) (map fst d2)
  /\ (forall c, keys_of h' d3 c = keys_of h d1 c ++ filter (fresh same (keys_of h d1 c)) (keys_of h d2 c)).
Proof.
  induction d2 as [|[c2 l2] d2 IH]; intros h d1 V1 V2 D.
  - change (merge h d1 []) with (h, d1). simpl. split; [rewrite app_nil_r; auto|].
    intros c. change (keys_of h [] c) with (@nil nat). simpl. rewrite app_nil_r. auto.
  - rewrite merge_cons.
    destruct V2 as (C2 & L2 & S2). cbn [map fst snd] in C2, L2.
    inversion C2 as [|? ? C2a C2b]. inversion L2 as [|? ? L2a L2b]. subst.
    assert (V2' : valid h d2) by (repeat split; auto; apply (S2 c l); simpl; auto).
    assert (V2e : valid h [(c2, l2)]).
    { split; [repeat constructor; auto|]. split; [repeat constructor; auto|].
      intros c l [E|[]]. injection E as <- <-. apply (S2 c2 l2). simpl; auto. }
    assert (De : forall c c' l, In (c, l) d1 -> In (c', l) [(c2, l2)] -> False).
    { intros c c' l H [E|[]]. injection E as <- <-. apply (D c c2 l2); simpl; auto. }
    pose proof (merge_spec same same_refl same_sym same_trans [(c2, l2)] h d1 V1 V2e De) as M.
    rewrite merge_cons in M.
    assert (K : let (h1, d1') := merge_class same (h, d1) (c2, l2) in
        map fst d1' = map fst d1 ++ filter (fresh String.eqb (map fst d1)) [c2]
        /\ (forall c, keys_of h1 d1' c = keys_of h d1 c
             ++ if String.eqb c2 c then filter (fresh same (keys_of h d1 c)) (map fst (read h l2)) else [])).
    { unfold merge_class. cbn [fst snd]. destruct (get_class d1 c2) as [l1|] eqn:G.
      - assert (fresh String.eqb (map fst d1) c2 = false) as F.
        { destruct (fresh String.eqb (map fst d1) c2) eqn:F; auto. apply get_class_fresh in F. congruence. }
        simpl. rewrite F, app_nil_r. split; auto. intros c. unfold keys_of.
        destruct (get_class d1 c) as [l|] eqn:Gc.
        + destruct V1 as (C1 & L1 & S1). pose proof (get_class_in _ _ _ G) as I1. pose proof (get_class_in _ _ _ Gc) as Ic.
          rewrite read_write by (apply (S1 c2 l1 I1)).
          destruct (String.eqb_spec c2 c) as [<-|N].
          * rewrite G in Gc. injection Gc as <-. rewrite Nat.eqb_refl. apply merge_refs_order.
            exact (proj2 (S2 c2 l2 (or_introl eq_refl))).
          * destruct (Nat.eqb_spec l l1) as [->|]; [|rewrite app_nil_r; auto]. exfalso. apply N.
            clear - L1 I1 Ic. induction d1 as [|[a b] d1 IH]; simpl in *; [tauto|].
            inversion L1 as [|? ? La Lb]. subst. destruct I1 as [E|I1], Ic as [F|Ic].
            -- congruence.
            -- injection E as -> ->. exfalso. apply La. apply (in_map snd _ _ Ic).
            -- injection F as -> ->. exfalso. apply La. apply (in_map snd _ _ I1).
            -- auto.
        + destruct (String.eqb_spec c2 c) as [->|]; [congruence|auto].
      - pose proof (proj1 (get_class_fresh _ _) G) as F. simpl. rewrite F, map_app. split; auto.
        intros c. unfold keys_of. rewrite get_class_app. destruct (get_class d1 c) as [l|] eqn:Gc.
        + destruct (String.eqb_spec c2 c) as [->|]; [congruence|rewrite app_nil_r; auto].
        + unfold get_class. simpl. destruct (String.eqb c2 c); auto. simpl. rewrite filter_true; auto. }
    destruct (merge_class same (h, d1) (c2, l2)) as [h1 d1'].
    change (merge h1 d1' []) with (h1, d1') in M.
    destruct M as (V1' & Hl & (extra & E3 & Hx) & _ & F3 & _). destruct K as [K1 K2].
    assert (R2 : forall c l, In (c, l) d2 -> read h1 l = read h l).
    { intros c l H. apply F3. intros c' H'. exfalso. apply (D c' c l); simpl; auto. }
    assert (V2'' : valid h1 d2).
    { repeat split; auto.
      - rewrite Hl. apply (S2 c l). simpl; auto.
      - rewrite (R2 c l) by auto. apply (S2 c l). simpl; auto. }
    assert (D' : forall c c' l, In (c, l) d1' -> In (c', l) d2 -> False).
    { intros c c' l H H'. rewrite E3 in H. apply in_app_iff in H. destruct H as [H|H].
      - apply (D c c' l); simpl; auto.
      - apply Hx in H. destruct H as [[E|[]] _]. injection E as <- <-. apply L2a. apply (in_map snd _ _ H'). }
    specialize (IH h1 d1' V1' V2'' D'). destruct (merge h1 d1' d2) as [h' d3]. destruct IH as [I1 I2].
    split.
    + rewrite I1, K1. change (map fst ((c2, l2) :: d2)) with ([c2] ++ map fst d2). rewrite filter_app, <- app_assoc.
      f_equal. f_equal. apply filter_ext_in. intros x Hx'. unfold fresh. rewrite existsb_app.
      destruct (existsb (String.eqb x) (map fst d1)); auto. simpl.
      destruct (negb (existsb (String.eqb c2) (map fst d1))); simpl; auto.
      destruct (String.eqb_spec x c2) as [->|]; [tauto|auto].
    + intros c. rewrite I2, (K2 c).
      assert (keys_of h1 d2 c = keys_of h d2 c) as ->.
      { unfold keys_of. destruct (get_class d2 c) as [l|] eqn:G; auto. rewrite (R2 c l) by (apply get_class_in; auto). auto. }
      assert (Ed : keys_of h ((c2, l2) :: d2) c = if String.eqb c2 c then map fst (read h l2) else keys_of h d2 c).
      { unfold keys_of, get_class. simpl. destruct (String.eqb c2 c); auto. }
      rewrite Ed. clear Ed. destruct (String.eqb_spec c2 c) as [E|]; [subst c|rewrite app_nil_r; auto].
      assert (keys_of h d2 c2 = []) as ->.
      { unfold keys_of. apply get_class_not in C2a. rewrite C2a. auto. }
      simpl. rewrite app_nil_r. auto.
Qed.

(** ** The order in which objects are seen *)

Definition ids_of (c : string) (vs : list visit) : list nat :=
  map (fun w => snd (fst w)) (filter (fun w => String.eqb (fst (fst w)) c) vs).

Definition ordered (h : store) (d : breakdown_dict) (vs : list visit) : Prop :=
  map fst d = dedup String.eqb [] (map (fun w => fst (fst w)) vs)
  /\ forall c, keys_of h d c = dedup same [] (ids_of c vs).

Lemma ids_app c vs ws : ids_of c (vs ++ ws) = ids_of c vs ++ ids_of c ws.
Proof. unfold ids_of. rewrite filter_app, map_app. auto. Qed.

Notation reached := (reached same).

Lemma ordered_merge h0 h d vs h1 d2 ws : reached h0 h d vs -> reached h h1 d2 ws ->
  ordered h d vs -> ordered h1 d2 ws ->
  let (h2, d3) := merge h1 d d2 in ordered h2 d3 (vs ++ ws).
Proof.
  intros (V1 & L1 & F1 & B1 & P1 & K1 & N1) (V2 & L2 & F2 & B2 & P2 & K2 & N2) [O1 O2] [O3 O4].
  assert (Rd : forall c l, In (c, l) d -> read h1 l = read h l).
  { intros c l H. apply F2. apply (proj2 (proj2 V1) c l H). }
  assert (V1' : valid h1 d).
  { destruct V1 as (C & L & S). split; auto. split; auto. intros c l H. destruct (S c l H) as [Sl Sd].
    split; [lia|]. rewrite (Rd c l H). exact Sd. }
  assert (D : forall c c' l, In (c, l) d -> In (c', l) d2 -> False).
  { intros c c' l H H'. pose proof (proj1 (proj2 (proj2 V1) c l H)). pose proof (B2 c' l H'). lia. }
  pose proof (merge_order d2 h1 d V1' V2 D) as M. destruct (merge h1 d d2) as [h2 d3]. destruct M as [M1 M2].
  split.
  - rewrite M1, O1, O3, map_app. symmetry. apply dedup_app.
    + apply String.eqb_refl.
    + apply eqb_string_sym.
    + apply eqb_string_trans.
  - intros c. rewrite M2, ids_app, dedup_app, O4 by auto.
    assert (keys_of h1 d c = keys_of h d c) as ->; [|rewrite O2; auto].
    unfold keys_of. destruct (get_class d c) as [l|] eqn:G; auto. rewrite (Rd c l) by (apply get_class_in; auto). auto.
Qed.

Lemma ordered_refl h : ordered h [] [].
Proof. split; auto. Qed.

Lemma loopf_ordered f path l :
  (forall k x h, In (k, x) l -> exists h' d, f h x (extend path k) = Ok (h', d)
     /\ reached h h' d (visits (extend path k) x) /\ ordered h' d (visits (extend path k) x)) ->
  forall h0 h d vs, reached h0 h d vs -> ordered h d vs ->
  exists h' d', loopf same f path l h d = Ok (h', d')
    /\ reached h0 h' d' (vs ++ flat_map (fun kx => visits (extend path (fst kx)) (snd kx)) l)
    /\ ordered h' d' (vs ++ flat_map (fun kx => visits (extend path (fst kx)) (snd kx)) l).
Proof.
  induction l as [|[k x] l IH]; intros Hf h0 h d vs R O.
  - simpl. rewrite app_nil_r. eauto.
  - simpl. destruct (Hf k x h (or_introl eq_refl)) as (h1 & d1 & E & R1 & O1). rewrite E. simpl.
    pose proof (reached_merge same same_refl same_sym same_trans _ _ _ _ _ _ _ R R1) as R2.
    pose proof (ordered_merge _ _ _ _ _ _ _ R R1 O O1) as O2.
    destruct (merge h1 d d1) as [h2 d2].
    destruct (IH (fun k' x' h' H' => Hf k' x' h' (or_intror H')) _ _ _ _ R2 O2) as (h3 & d3 & E3 & R3 & O3).
    exists h3, d3. rewrite app_assoc. auto.
Qed.

Theorem breakdown_ordered n : forall v h path, BreakdownSpec.height v <= n ->
  exists h' d, breakdown same n h v path = Ok (h', d) /\ reached h h' d (visits path v) /\ ordered h' d (visits path v).
Proof.
  induction n as [|n IH]; intros v h path H; [destruct v; simpl in H; lia|].
  assert (Hf : forall k x h, In (k, x) (children v) ->
    exists h' d, breakdown same n h x (extend path k) = Ok (h', d)
      /\ reached h h' d (visits (extend path k) x) /\ ordered h' d (visits (extend path k) x)).
  { intros k x h' Hx. apply IH. pose proof (height_children v k x Hx). lia. }
  destruct (breakdown_reached same same_refl same_sym same_trans (S n) v h path H) as (h' & d' & E & R).
  exists h', d'. split; auto. split; auto. clear R. revert E.
  rewrite breakdown_step, visits_children.
  destruct v as [|l|l|d|c i a];
    try (destruct (loopf_ordered _ _ _ Hf h h [] [] (reached_refl same h) (ordered_refl h)) as (h1 & d1 & E1 & R1 & O1);
         intros E; assert (E2 : Ok (h1, d1) = Ok (h', d')) by (rewrite <- E1; exact E); injection E2 as <- <-; exact O1).
  cbn [here]. destruct path as [|ch path].
  - simpl String.eqb. cbn iota beta.
    destruct (loopf_ordered _ _ _ Hf h h [] [] (reached_refl same h) (ordered_refl h)) as (h1 & d1 & E1 & R1 & O1).
    rewrite E1. cbn [bind].
    pose proof (ordered_merge _ _ _ _ _ _ _ (reached_refl same h) R1 (ordered_refl h) O1) as O2.
    destruct (merge h1 [] d1) as [h2 d2]. intros E2. injection E2 as <- <-. exact O2.
  - simpl String.eqb. cbn iota beta. set (p := String ch path) in *.
    set (h1 := h ++ [[(i, p)]]).
    assert (Rl : read h1 (List.length h) = [(i, p)]).
    { unfold read, h1. rewrite app_nth2, Nat.sub_diag by lia. auto. }
    assert (R1 : exists h0, reached h0 h1 [(c, List.length h)] [(c, i, p)]).
    { exists h. assert (Ll : List.length h1 = S (List.length h)) by (unfold h1; rewrite app_length; simpl; lia).
      split; [|split; [|split; [|split; [|split; [|split]]]]].
      - split; [repeat constructor; auto|]. split; [repeat constructor; auto|].
        intros c' l [E|[]]. injection E as <- <-. split; [lia|]. rewrite Rl.
        intros [|i'] [|j'] o o' q q' Hi Hj; auto; try (destruct i'; discriminate); destruct j'; discriminate.
      - lia.
      - intros l Hl. unfold h1. apply read_app. auto.
      - intros c' l [E|[]]. injection E as <- <-. auto.
      - intros c' o. unfold BreakdownSpec.path_of, get_class, paths. simpl.
        destruct (String.eqb c c'); simpl; auto. rewrite Rl. unfold get_ref. simpl. destruct (same i o); auto.
      - intros c' l j k q [E|[]] Hj. injection E as <- <-. rewrite Rl in Hj.
        destruct j as [|j]; simpl in Hj; [|destruct j; discriminate]. injection Hj as <- <-. exists p. simpl; auto.
      - intros c' l [E|[]]. injection E as <- <-. exists i. unfold BreakdownSpec.path_of, get_class. simpl.
        rewrite String.eqb_refl. simpl. rewrite Rl. unfold get_ref. simpl. rewrite same_refl. discriminate. }
    destruct R1 as [h0 R1].
    assert (O1 : ordered h1 [(c, List.length h)] [(c, i, p)]).
    { split; [reflexivity|]. intros c'. unfold keys_of, get_class, ids_of. simpl.
      destruct (String.eqb c c'); simpl; auto. rewrite Rl. auto. }
    destruct (loopf_ordered _ _ _ Hf h1 h1 [] [] (reached_refl same h1) (ordered_refl h1)) as (h2 & d2 & E2 & R2 & O2).
    rewrite E2. cbn [bind].
    pose proof (ordered_merge _ _ _ _ _ _ _ R1 R2 O1 O2) as O3.
    destruct (merge h2 [(c, List.length h)] d2) as [h3 d3]. intros E3. injection E3 as <- <-. exact O3.
Qed.
End Same.

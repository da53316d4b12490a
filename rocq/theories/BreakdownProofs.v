(** Proofs about breakdowns. *)
From Coq Require Import Ascii String List Bool Arith Lia.
From Verif Require Import Base TableModel TableProofs BreakdownModel BreakdownSpec.
Import ListNotations.
Open Scope list_scope.
Open Scope nat_scope.

(** ** Depth *)

Lemma split_not_nil s : split_dots s <> [].
Proof.
  destruct s as [|c s]; simpl; [congruence|]. destruct (Ascii.eqb c "."); [congruence|].
  destruct (split_dots s); congruence.
Qed.

Lemma depth_dots s : depth s = S (dots s).
Proof.
  unfold depth. induction s as [|c s IH]; simpl; auto.
  destruct (Ascii.eqb c "."); simpl; [rewrite IH; auto|].
  pose proof (split_not_nil s). destruct (split_dots s); simpl in *; [congruence|auto].
Qed.

Lemma dots_app a b : dots (a ++ b)%string = dots a + dots b.
Proof. induction a as [|c a IH]; simpl; auto. rewrite IH. destruct (Ascii.eqb c "."); auto. Qed.

(** ** Keeping the shallowest *)

Definition keep (p q : option string) : option string :=
  match p, q with
  | None, _ => q
  | _, None => p
  | Some p', Some q' => if dots q' <? dots p' then q else p
  end.

Lemma keep_assoc p q r : keep (keep p q) r = keep p (keep q r).
Proof.
  destruct p as [p|], q as [q|], r as [r|]; simpl; auto;
    repeat (match goal with |- context [?x <? ?y] => destruct (Nat.ltb_spec x y) end; simpl; try lia); auto.
Qed.

Lemma keep_none p : keep p None = p.
Proof. destruct p; auto. Qed.

Definition best (l : list string) : option string := fold_right (fun p b => keep (Some p) b) None l.

Lemma best_app l m : best (l ++ m) = keep (best l) (best m).
Proof.
  induction l as [|p l IH]; auto.
  change (keep (Some p) (best (l ++ m)) = keep (keep (Some p) (best l)) (best m)). rewrite IH, keep_assoc. auto.
Qed.

Lemma best_none l : best l = None <-> l = [].
Proof.
  destruct l as [|p l]; simpl; [tauto|]. destruct (best l) as [q|]; simpl.
  - destruct (dots q <? dots p); split; congruence.
  - split; congruence.
Qed.

Lemma best_spec l p : best l = Some p ->
  exists l1 l2, l = l1 ++ p :: l2 /\ (forall q, In q l1 -> dots p < dots q) /\ (forall q, In q l2 -> dots p <= dots q).
Proof.
  revert p. induction l as [|x l IH]; intros p H; [discriminate|]. simpl in H.
  destruct (best l) as [q|] eqn:E.
  - destruct (IH q eq_refl) as (l1 & l2 & El & H1 & H2). simpl in H.
    destruct (Nat.ltb_spec (dots q) (dots x)); injection H as <-.
    + exists (x :: l1), l2. rewrite El. split; auto. split; auto. intros y [<-|Hy]; auto.
    + exists [], l. split; auto. split; [intros y []|]. intros y Hy. rewrite El in Hy.
      apply in_app_iff in Hy. destruct Hy as [Hy|[<-|Hy]]; auto.
      * specialize (H1 y Hy). lia.
      * specialize (H2 y Hy). lia.
  - simpl in H. injection H as <-. apply best_none in E. rewrite E. exists [], []. repeat split; intros ? [].
Qed.

Section Same.
Variable same : nat -> nat -> bool.
Hypothesis same_refl : forall a, same a a = true.
Hypothesis same_sym : forall a b, same a b = true -> same b a = true.
Hypothesis same_trans : forall a b c, same a b = true -> same b c = true -> same a c = true.

Lemma same_left a b c : same a b = true -> same a c = same b c.
Proof.
  intros H. destruct (same a c) eqn:E, (same b c) eqn:F; auto.
  - rewrite <- F. symmetry. eapply same_trans; eauto.
  - rewrite <- E. eapply same_trans; eauto.
Qed.

Lemma same_comm a b : same a b = same b a.
Proof.
  destruct (same a b) eqn:E, (same b a) eqn:F; auto.
  - rewrite <- F. symmetry. auto.
  - rewrite <- E. auto.
Qed.

(** ** Dictionaries of objects *)

Definition distinct (r : refs) : Prop :=
  forall i j o o' p p', nth_error r i = Some (o, p) -> nth_error r j = Some (o', p') -> same o o' = true -> i = j.

Lemma get_set r o p o' : get_ref same (set_ref same r o p) o' = if same o o' then Some p else get_ref same r o'.
Proof.
  unfold get_ref. induction r as [|[k q] r IH]; simpl.
  - destruct (same o o'); auto.
  - destruct (same k o) eqn:E; simpl.
    + rewrite (same_left k o o' E). destruct (same o o'); auto.
    + destruct (same k o') eqn:F; simpl; auto.
      destruct (same o o') eqn:G; auto. exfalso.
      assert (same k o = true) by (eapply same_trans; [eauto|apply same_sym; auto]). congruence.
Qed.

Lemma set_nth r o p i k q : nth_error (set_ref same r o p) i = Some (k, q) ->
  (exists q', nth_error r i = Some (k, q')) \/ (i = List.length r /\ k = o /\ get_ref same r o = None).
Proof.
  unfold get_ref. revert i. induction r as [|[k' q'] r IH]; simpl; intros i H.
  - destruct i as [|i]; simpl in H; [injection H as <- <-; auto|destruct i; discriminate].
  - destruct (same k' o) eqn:E; simpl in *.
    + left. destruct i as [|i]; simpl in *; [injection H as <- <-; eauto|eauto].
    + destruct i as [|i]; simpl in *; [injection H as <- <-; eauto|].
      destruct (IH i H) as [Hi|(-> & -> & Hn)]; auto.
Qed.

Lemma get_none r o : get_ref same r o = None -> forall i k q, nth_error r i = Some (k, q) -> same k o = false.
Proof.
  unfold get_ref. intros H i k q Hi. destruct (same k o) eqn:E; auto.
  destruct (find (fun e => same (fst e) o) r) eqn:F; [discriminate|].
  apply nth_error_In in Hi. pose proof (find_none _ _ F _ Hi) as G. simpl in G. congruence.
Qed.

Lemma get_some r o p : get_ref same r o = Some p -> exists i k, nth_error r i = Some (k, p) /\ same k o = true.
Proof.
  unfold get_ref. destruct (find (fun e => same (fst e) o) r) as [[k q]|] eqn:F; [|discriminate].
  intros H. injection H as <-. apply find_some in F. destruct F as [Hi E].
  apply In_nth_error in Hi. destruct Hi as [i Hi]. eauto.
Qed.

Lemma get_entry r i o p : distinct r -> nth_error r i = Some (o, p) -> get_ref same r o = Some p.
Proof.
  intros D Hi. destruct (get_ref same r o) as [q|] eqn:E.
  - destruct (get_some _ _ _ E) as (j & k & Hj & Hk). assert (j = i) by (eapply D; eauto). congruence.
  - pose proof (get_none _ _ E _ _ _ Hi) as F. rewrite same_refl in F. discriminate.
Qed.

Lemma distinct_set r o p : distinct r -> distinct (set_ref same r o p).
Proof.
  intros D i j k k' q q' Hi Hj E.
  destruct (set_nth _ _ _ _ _ _ Hi) as [[qi Hi']|(-> & -> & Hn)];
    destruct (set_nth _ _ _ _ _ _ Hj) as [[qj Hj']|(-> & -> & Hm)]; eauto.
  - pose proof (get_none _ _ Hm _ _ _ Hi'). congruence.
  - pose proof (get_none _ _ Hn _ _ _ Hj') as F. rewrite same_comm in F. congruence.
Qed.

Lemma merge_refs_cons d e entries : merge_refs same d (e :: entries)
  = merge_refs same (match get_ref same d (fst e) with
                     | Some path => if depth (snd e) <? depth path then set_ref same d (fst e) (snd e) else d
                     | None => set_ref same d (fst e) (snd e)
                     end) entries.
Proof. reflexivity. Qed.

Lemma distinct_tl e r : distinct (e :: r) -> distinct r.
Proof. intros D i j o o' p p' Hi Hj E. specialize (D (S i) (S j) o o' p p' Hi Hj E). lia. Qed.

Lemma merge_refs_get entries : forall d o, distinct entries ->
  get_ref same (merge_refs same d entries) o = keep (get_ref same d o) (get_ref same entries o).
Proof.
  induction entries as [|[k q] entries IH]; intros d o D.
  - simpl. unfold get_ref at 3. simpl. rewrite keep_none. auto.
  - rewrite merge_refs_cons, IH by (eapply distinct_tl; eauto). simpl fst. simpl snd.
    assert (G : get_ref same ((k, q) :: entries) o = if same k o then Some q else get_ref same entries o).
    { unfold get_ref. simpl. destruct (same k o); auto. }
    assert (N : same k o = true -> get_ref same entries o = None).
    { intros E. destruct (get_ref same entries o) as [p|] eqn:F; auto. exfalso.
      destruct (get_some _ _ _ F) as (i & k' & Hi & Hk).
      assert (0 = S i); [|lia]. eapply (D 0 (S i) k k' q p); simpl; eauto. }
    rewrite G. rewrite !depth_dots.
    assert (K : same k o = true -> get_ref same d o = get_ref same d k).
    { intros E. unfold get_ref. f_equal. clear - E same_refl same_sym same_trans. induction d as [|[a b] d IH]; simpl; auto.
      rewrite (same_comm a o), (same_comm a k), <- (same_left k o a E), IH. auto. }
    destruct (get_ref same d k) as [p|] eqn:F.
    + rewrite ?depth_dots. change (S (dots q) <? S (dots p)) with (dots q <? dots p).
      destruct (dots q <? dots p) eqn:L.
      * rewrite get_set. destruct (same k o) eqn:E; auto. rewrite N, K by auto. simpl. rewrite L. auto.
      * destruct (same k o) eqn:E; auto. rewrite N, K by auto. simpl. rewrite L. auto.
    + rewrite get_set. destruct (same k o) eqn:E; auto. rewrite N, K by auto. auto.
Qed.

Lemma merge_refs_distinct entries : forall d, distinct d -> distinct (merge_refs same d entries).
Proof.
  induction entries as [|e entries IH]; intros d D; auto. rewrite merge_refs_cons. apply IH.
  destruct (get_ref same d (fst e)); [destruct (_ <? _)|]; auto; apply distinct_set; auto.
Qed.

(** keys of a merged dictionary come from one of the two *)
Lemma merge_refs_keys entries : forall d i k q, nth_error (merge_refs same d entries) i = Some (k, q) ->
  (exists j q', nth_error d j = Some (k, q')) \/ (exists j q', nth_error entries j = Some (k, q')).
Proof.
  induction entries as [|[o p] entries IH]; intros d i k q H; [left; simpl in H; eauto|].
  rewrite merge_refs_cons in H. simpl fst in H. simpl snd in H.
  apply IH in H. destruct H as [(j & q' & Hj)|(j & q' & Hj)]; [|right; exists (S j), q'; auto].
  assert (S : (exists q'', nth_error d j = Some (k, q'')) \/ k = o).
  { destruct (get_ref same d o) as [x|]; [destruct (_ <? _)|]; eauto;
      apply set_nth in Hj; destruct Hj as [?|(_ & -> & _)]; auto. }
  destruct S as [[q'' Hq]|E]; [left; eauto|]. right. exists 0, p. rewrite E. auto.
Qed.

(** ** The store *)

Lemma write_length h : forall l r, List.length (write h l r) = List.length h.
Proof. induction h as [|x h IH]; intros [|l] r; simpl; auto. Qed.

Lemma read_write h : forall l r l', l < List.length h ->
  read (write h l r) l' = if l' =? l then r else read h l'.
Proof.
  unfold read. induction h as [|x h IH]; intros [|l] r [|l'] H; simpl in *; auto; try lia.
  apply IH. lia.
Qed.

Lemma read_app h h' l : l < List.length h -> read (h ++ h') l = read h l.
Proof. intros H. unfold read. apply app_nth1. auto. Qed.

(** ** Merging *)

Lemma get_class_app {A} (d d' : list (string * A)) c :
  get_class (d ++ d') c = match get_class d c with Some x => Some x | None => get_class d' c end.
Proof.
  unfold get_class. induction d as [|[c' x] d IH]; simpl; auto.
  destruct (String.eqb c' c); simpl; auto.
Qed.

Lemma get_class_in {A} (d : list (string * A)) c x : get_class d c = Some x -> In (c, x) d.
Proof.
  unfold get_class. destruct (find _ d) as [[c' y]|] eqn:F; [|discriminate]. intros H. injection H as <-.
  apply find_some in F. destruct F as [H E]. simpl in E. apply String.eqb_eq in E. subst. auto.
Qed.

Lemma get_class_not {A} (d : list (string * A)) c : get_class d c = None <-> ~ In c (map fst d).
Proof.
  unfold get_class. induction d as [|[c' x] d IH]; simpl; [tauto|].
  destruct (String.eqb_spec c' c); simpl; [split; [discriminate|intuition]|]. rewrite IH. intuition.
Qed.

Lemma in_get_class {A} (d : list (string * A)) c x : NoDup (map fst d) -> In (c, x) d -> get_class d c = Some x.
Proof.
  unfold get_class. induction d as [|[c' y] d IH]; simpl; intros N H; [tauto|]. inversion N as [|? ? N1 N2]. subst.
  destruct H as [H|H].
  - injection H as <- <-. rewrite String.eqb_refl. auto.
  - destruct (String.eqb_spec c' c) as [->|]; auto. exfalso. apply N1. apply (in_map fst _ _ H).
Qed.

Notation path_of := (path_of same).
Notation merge := (merge_breakdown_dicts same).
Notation valid := (valid same).

Lemma merge_cons h d1 e d2 : merge h d1 (e :: d2) = let (h', d1') := merge_class same (h, d1) e in merge h' d1' d2.
Proof. unfold merge_breakdown_dicts. cbn [fold_left]. destruct (merge_class same (h, d1) e). auto. Qed.

Lemma merge_spec d2 : forall h d1, valid h d1 -> valid h d2 ->
  (forall c c' l, In (c, l) d1 -> In (c', l) d2 -> False) ->
  let (h', d3) := merge h d1 d2 in
  valid h' d3 /\ List.length h' = List.length h
  /\ (exists extra, d3 = d1 ++ extra /\ forall e, In e extra <-> In e d2 /\ get_class d1 (fst e) = None)
  /\ (forall c o, path_of h' d3 c o = keep (path_of h d1 c o) (path_of h d2 c o))
  /\ (forall l, (forall c, In (c, l) d1 -> get_class d2 c = None) -> read h' l = read h l)
  /\ (forall c l i k q, In (c, l) d3 -> nth_error (read h' l) i = Some (k, q) ->
        exists l' j q', (In (c, l') d1 \/ In (c, l') d2) /\ nth_error (read h l') j = Some (k, q')).
Proof.
  induction d2 as [|[c2 l2] d2 IH]; intros h d1 V1 V2 D.
  - change (merge h d1 []) with (h, d1). split; auto. split; auto. split; [|split; [|split; auto]].
    + exists []. rewrite app_nil_r. split; auto. intros e. simpl. tauto.
    + intros c o. unfold BreakdownSpec.path_of at 3. simpl. rewrite keep_none. auto.
    + intros c l i k q H Hi. exists l, i, q. auto.
  - rewrite merge_cons. unfold merge_class. cbn [fst snd].
    destruct V2 as (C2 & L2 & S2). cbn [map fst snd] in C2, L2.
    inversion C2 as [|? ? C2a C2b]. inversion L2 as [|? ? L2a L2b]. subst.
    assert (V2' : valid h d2) by (repeat split; auto; apply (S2 c l); simpl; auto).
    assert (P2 : forall c o, path_of h ((c2, l2) :: d2) c o
                 = if String.eqb c2 c then get_ref same (read h l2) o else path_of h d2 c o).
    { intros c o. unfold BreakdownSpec.path_of, get_class. simpl. destruct (String.eqb c2 c); auto. }
    assert (P2c : forall c o, String.eqb c2 c = true -> path_of h d2 c o = None).
    { intros c o E. apply String.eqb_eq in E. subst c. unfold BreakdownSpec.path_of.
      rewrite (proj2 (get_class_not d2 c2) C2a). auto. }
    destruct (get_class d1 c2) as [l1|] eqn:G.
    + pose proof (get_class_in _ _ _ G) as I1.
      assert (N12 : l1 <> l2) by (intros E; apply (D c2 c2 l1); auto; rewrite E; simpl; auto).
      destruct V1 as (C1 & L1 & S1). destruct (S1 _ _ I1) as [Ll1 D1].
      assert (D2 : distinct (read h l2)) by (destruct (S2 c2 l2) as [_ D2]; [simpl; auto|exact D2]).
      set (r := merge_refs same (read h l1) (read h l2)) in *. set (h1 := write h l1 r) in *.
      assert (R : forall l, read h1 l = if l =? l1 then r else read h l) by (intros l; apply read_write; auto).
      assert (Dr : distinct r) by (apply merge_refs_distinct; auto).
      assert (In1 : forall c l, In (c, l) d1 -> l = l1 -> c = c2).
      { intros c l Hc ->. clear - L1 I1 Hc. induction d1 as [|[c' l'] d1 IHd]; simpl in *; [tauto|].
        inversion L1 as [|? ? La Lb]. subst. destruct I1 as [E|I1], Hc as [F|Hc].
        - congruence.
        - injection E as -> ->. exfalso. apply La. apply (in_map snd _ _ Hc).
        - injection F as -> ->. exfalso. apply La. apply (in_map snd _ _ I1).
        - auto. }
      assert (R2 : forall c l, In (c, l) d2 -> read h1 l = read h l).
      { intros c l Hc. rewrite R. destruct (Nat.eqb_spec l l1) as [->|]; auto.
        exfalso. apply (D c2 c l1); simpl; auto. }
      assert (V1' : valid h1 d1).
      { repeat split; auto.
        - unfold h1. rewrite write_length. apply (S1 c l). auto.
        - rewrite R. destruct (l =? l1) eqn:E; [apply Dr|]. apply (S1 c l). auto. }
      assert (V2'' : valid h1 d2).
      { repeat split; auto.
        - unfold h1. rewrite write_length. apply (S2 c l). simpl; auto.
        - rewrite (R2 c l) by auto. apply (S2 c l). simpl; auto. }
      assert (D' : forall c c' l, In (c, l) d1 -> In (c', l) d2 -> False).
      { intros c c' l H1 H2. apply (D c c' l); simpl; auto. }
      specialize (IH h1 d1 V1' V2'' D'). destruct (merge h1 d1 d2) as [h' d3].
      destruct IH as (V3 & Hl & (extra & E3 & Hx) & P3 & F3 & K3).
      split; auto. split; [rewrite Hl; apply write_length|]. split; [|split; [|split]].
      * exists extra. split; auto. intros e. rewrite Hx. simpl. split; [tauto|].
        intros [[<-|H] N]; [simpl in N; congruence|auto].
      * intros c o. rewrite P3, P2.
        assert (path_of h1 d2 c o = path_of h d2 c o) as ->.
        { unfold BreakdownSpec.path_of. destruct (get_class d2 c) as [l|] eqn:Gc; auto.
          rewrite (R2 c l) by (apply get_class_in; auto). auto. }
        destruct (String.eqb c2 c) eqn:Ec.
        -- rewrite P2c, keep_none by auto. apply String.eqb_eq in Ec. subst c.
           unfold BreakdownSpec.path_of. rewrite G. rewrite R, Nat.eqb_refl. apply merge_refs_get. auto.
        -- f_equal. unfold BreakdownSpec.path_of. destruct (get_class d1 c) as [l|] eqn:Gc; auto.
           rewrite R. destruct (Nat.eqb_spec l l1) as [E|]; auto.
           apply get_class_in in Gc. rewrite (In1 c l Gc E), String.eqb_refl in Ec. discriminate.
      * intros l Hn. rewrite F3.
        -- rewrite R. destruct (Nat.eqb_spec l l1) as [->|]; auto. exfalso.
           specialize (Hn c2 I1). unfold get_class in Hn. simpl in Hn. rewrite String.eqb_refl in Hn. discriminate.
        -- intros c Hc. specialize (Hn c Hc). unfold get_class in *. simpl in Hn.
           destruct (String.eqb c2 c); [discriminate|auto].
      * intros c l i k q Hc Hi. destruct (K3 c l i k q Hc Hi) as (l' & j & q' & [H1|H2] & Hj).
        -- rewrite R in Hj. destruct (Nat.eqb_spec l' l1) as [->|].
           ++ rewrite (In1 c l1 H1 eq_refl). unfold r in Hj.
              destruct (merge_refs_keys _ _ _ _ _ Hj) as [(j' & q'' & Hj')|(j' & q'' & Hj')].
              ** exists l1, j', q''. auto.
              ** exists l2, j', q''. simpl. auto.
           ++ exists l', j, q'. auto.
        -- rewrite (R2 c l') in Hj by auto. exists l', j, q'. simpl. auto.
    + assert (V1' : valid h (d1 ++ [(c2, l2)])).
      { destruct V1 as (C1 & L1 & S1). split; [|split].
        - rewrite map_app. simpl. apply get_class_not in G. clear - C1 G.
          induction (map fst d1) as [|x m IHm]; simpl in *; [repeat constructor; auto|].
          inversion C1; subst. constructor; [|apply IHm; auto]. rewrite in_app_iff. simpl. intuition.
        - rewrite map_app. simpl.
          assert (G' : ~ In l2 (map snd d1)).
          { intros H. apply in_map_iff in H. destruct H as ([c l] & E & H). simpl in E. subst l.
            apply (D c c2 l2); simpl; auto. }
          clear - L1 G'. induction (map snd d1) as [|x m IHm]; simpl in *; [repeat constructor; auto|].
          inversion L1; subst. constructor; [|apply IHm; auto]. rewrite in_app_iff. simpl. intuition.
        - intros c l H. apply in_app_iff in H. destruct H as [H|[H|[]]]; [apply (S1 c l); auto|].
          injection H as <- <-. apply (S2 c2 l2). simpl; auto. }
      assert (D' : forall c c' l, In (c, l) (d1 ++ [(c2, l2)]) -> In (c', l) d2 -> False).
      { intros c c' l H1 H2. apply in_app_iff in H1. destruct H1 as [H1|[H1|[]]].
        - apply (D c c' l); simpl; auto.
        - injection H1 as <- <-. apply L2a. apply (in_map snd _ _ H2). }
      specialize (IH h (d1 ++ [(c2, l2)]) V1' V2' D'). destruct (merge h (d1 ++ [(c2, l2)]) d2) as [h' d3].
      destruct IH as (V3 & Hl & (extra & E3 & Hx) & P3 & F3 & K3).
      split; auto. split; auto. split; [|split; [|split]].
      * exists ((c2, l2) :: extra). split; [rewrite E3, <- app_assoc; auto|].
        intros e. simpl. rewrite Hx, get_class_app. split.
        -- intros [<-|[H N]]; [auto|]. destruct (get_class d1 (fst e)); [discriminate|auto].
        -- intros [[<-|H] N]; auto. right. split; auto. rewrite N. apply get_class_not. simpl.
           intros [E|[]]. apply C2a. rewrite E. apply (in_map fst _ _ H).
      * intros c o. rewrite P3, P2. unfold BreakdownSpec.path_of at 1. rewrite get_class_app.
        destruct (String.eqb c2 c) eqn:Ec.
        -- pose proof Ec as Ec'. apply String.eqb_eq in Ec. subst c. rewrite P2c by auto. rewrite keep_none.
           unfold BreakdownSpec.path_of. rewrite G. unfold get_class. simpl. rewrite String.eqb_refl. auto.
        -- f_equal. unfold BreakdownSpec.path_of. destruct (get_class d1 c); auto.
           unfold get_class. simpl. rewrite Ec. auto.
      * intros l Hn. apply F3. intros c Hc. apply in_app_iff in Hc. destruct Hc as [Hc|[Hc|[]]].
        -- specialize (Hn c Hc). unfold get_class in *. simpl in Hn. destruct (String.eqb c2 c); [discriminate|auto].
        -- injection Hc as <- <-. apply get_class_not. auto.
      * intros c l i k q Hc Hi. destruct (K3 c l i k q Hc Hi) as (l' & j & q' & [H1|H2] & Hj).
        -- apply in_app_iff in H1. destruct H1 as [H1|[H1|[]]]; [exists l', j, q'; auto|].
           injection H1 as <- <-. exists l2, j, q'. simpl; auto.
        -- exists l', j, q'. simpl; auto.
Qed.

(** ** Breaking down *)

Definition children (v : value) : list (string * value) :=
  match v with
  | Plain => []
  | Seq l | Set_ l => map (fun ix => (nat_str (fst ix), snd ix)) (enumerate l)
  | Dict d => d
  | Obj _ _ a => filter (fun kx => negb (is_seq (snd kx)) && negb (is_dict (snd kx))) a
                 ++ filter (fun kx => is_seq (snd kx)) a ++ filter (fun kx => is_dict (snd kx)) a
  end.

Definition here (path : string) (v : value) : list visit :=
  match v with
  | Obj c i _ => match path with EmptyString => [] | _ => [(c, i, path)] end
  | _ => []
  end.

Lemma extend_longer path key : extend path key = longer path key.
Proof. unfold extend. destruct path as [|c path]; simpl; auto. rewrite sapp_assoc. auto. Qed.

Lemma flat_map_filter {A B} (f : A -> bool) (g : A -> list B) l :
  flat_map g (filter f l) = flat_map (fun x => if f x then g x else []) l.
Proof. induction l as [|x l IH]; simpl; auto. destruct (f x); simpl; rewrite IH; auto. Qed.

Lemma flat_map_same {A B} (f g : A -> list B) l : (forall x, f x = g x) -> flat_map f l = flat_map g l.
Proof. intros H. induction l as [|x l IH]; simpl; auto. rewrite H, IH. auto. Qed.

Lemma visits_children path v :
  visits path v = here path v ++ flat_map (fun kx => visits (extend path (fst kx)) (snd kx)) (children v).
Proof.
  assert (I : forall l n, (fix items (n : nat) (l : list value) : list visit :=
         match l with
         | [] => []
         | x :: l' => visits (longer path (nat_str n)) x ++ items (S n) l'
         end) n l
     = flat_map (fun kx => visits (extend path (fst kx)) (snd kx))
         (map (fun ix => (nat_str (fst ix), snd ix)) (combine (seq n (List.length l)) l))).
  { induction l as [|x l IH]; intros n; auto. simpl. rewrite extend_longer. f_equal. apply IH. }
  destruct v as [|l|l|d|c i a]; simpl; auto.
  - apply I.
  - apply I.
  - apply flat_map_same. intros x. rewrite extend_longer. auto.
  - f_equal. rewrite !flat_map_app, !flat_map_filter. f_equal; [|f_equal]; apply flat_map_same;
      intros [k x]; simpl; rewrite extend_longer; destruct x; auto.
Qed.

Lemma height_children v k x : In (k, x) (children v) -> height x < height v.
Proof.
  assert (M : forall l y, In y l -> height y <= fold_right (fun x n => max (height x) n) 0 l).
  { induction l as [|z l IH]; simpl; intros y H; [tauto|]. destruct H as [->|H]; [lia|]. specialize (IH y H). lia. }
  assert (M2 : forall (l : list (string * value)) y, In y l ->
            height (snd y) <= fold_right (fun kx n => max (height (snd kx)) n) 0 l).
  { induction l as [|z l IH]; simpl; intros y H; [tauto|]. destruct H as [->|H]; [lia|]. specialize (IH y H). lia. }
  assert (E : forall l, In (k, x) (map (fun ix => (nat_str (fst ix), snd ix)) (enumerate l)) -> In x l).
  { intros l H. apply in_map_iff in H. destruct H as ([i y] & E & H). simpl in E. injection E as _ <-.
    unfold enumerate in H. eapply in_combine_r; eauto. }
  destruct v as [|l|l|d|c i a]; simpl; intros H.
  - tauto.
  - apply E, M in H. lia.
  - apply E, M in H. lia.
  - apply M2 in H. simpl in H. lia.
  - assert (In (k, x) a) as Ha by (rewrite !in_app_iff, !filter_In in H; intuition).
    apply M2 in Ha. simpl in Ha. lia.
Qed.

(** the loops *)
Definition loopf (f : store -> value -> string -> res (store * breakdown_dict)) (path : string) :=
  fix loop (l : list (string * value)) (h : store) (bd_dict : breakdown_dict) : res (store * breakdown_dict) :=
  match l with
  | [] => Ok (h, bd_dict)
  | (k, x) :: l =>
    let* (h', dict2) := f h x (extend path k) in
    let (h'', bd_dict') := merge_breakdown_dicts same h' bd_dict dict2 in
    loop l h'' bd_dict'
  end.

Lemma loopf_app f path l m h d :
  loopf f path (l ++ m) h d = let* (h', d') := loopf f path l h d in loopf f path m h' d'.
Proof.
  revert h d. induction l as [|[k x] l IH]; intros h d; simpl; auto.
  destruct (f h x (extend path k)) as [[h1 d1]|e]; simpl; auto.
  destruct (merge_breakdown_dicts same h1 d d1) as [h2 d2]. apply IH.
Qed.

Lemma breakdown_step n h v path : breakdown same (S n) h v path =
  match v with
  | Obj c i _ =>
    let (h, bd_dict) := if String.eqb path "" then (h, [])
                        else ((h ++ [[(i, path)]])%list, [(c, List.length h)]) in
    let* (h, dict2) := loopf (breakdown same n) path (children v) h [] in
    Ok (merge_breakdown_dicts same h bd_dict dict2)
  | _ => loopf (breakdown same n) path (children v) h []
  end.
Proof.
  destruct v as [|l|l|d|c i a]; try reflexivity.
  cbn [children].
  transitivity (let (h, bd_dict) := if String.eqb path "" then (h, [])
                          else ((h ++ [[(i, path)]])%list, [(c, List.length h)]) in
      let* (h, dict2) := loopf (breakdown same n) path (filter (fun kx => negb (is_seq (snd kx)) && negb (is_dict (snd kx))) a) h [] in
      let* (h, dict2) := loopf (breakdown same n) path (filter (fun kx => is_seq (snd kx)) a) h dict2 in
      let* (h, dict2) := loopf (breakdown same n) path (filter (fun kx => is_dict (snd kx)) a) h dict2 in
      Ok (merge_breakdown_dicts same h bd_dict dict2)); [reflexivity|].
  destruct (if String.eqb path "" then _ else _) as [h1 d1].
  rewrite loopf_app.
  destruct (loopf (breakdown same n) path (filter _ a) h1 []) as [[h2 d2]|e]; simpl; auto.
  rewrite loopf_app.
  destruct (loopf (breakdown same n) path (filter _ a) h2 d2) as [[h3 d3]|e]; simpl; auto.
Qed.

Definition paths (vs : list visit) (c : string) (o : nat) : list string :=
  map snd (filter (fun w => String.eqb (fst (fst w)) c && same (snd (fst w)) o) vs).

Lemma paths_app vs ws c o : paths (vs ++ ws) c o = paths vs c o ++ paths ws c o.
Proof. unfold paths. rewrite filter_app, map_app. auto. Qed.

(** from the store [h0], the store is now [h] and the breakdown [d] is that of [vs] *)
Definition reached (h0 h : store) (d : breakdown_dict) (vs : list visit) : Prop :=
  valid h d /\ List.length h0 <= List.length h
  /\ (forall l, l < List.length h0 -> read h l = read h0 l)
  /\ (forall c l, In (c, l) d -> List.length h0 <= l)
  /\ (forall c o, path_of h d c o = best (paths vs c o))
  /\ (forall c l i k q, In (c, l) d -> nth_error (read h l) i = Some (k, q) -> exists p, In (c, k, p) vs)
  /\ (forall c l, In (c, l) d -> exists o, path_of h d c o <> None).

Lemma keep_not_none p q : p <> None \/ q <> None -> keep p q <> None.
Proof. destruct p as [p|], q as [q|]; simpl; try (intros; congruence); [destruct (_ <? _); congruence|tauto]. Qed.

Lemma reached_merge h0 h d vs h1 d2 ws : reached h0 h d vs -> reached h h1 d2 ws ->
  let (h2, d3) := merge h1 d d2 in reached h0 h2 d3 (vs ++ ws).
Proof.
  intros (V1 & L1 & F1 & B1 & P1 & K1 & N1) (V2 & L2 & F2 & B2 & P2 & K2 & N2).
  assert (Rd : forall c l, In (c, l) d -> read h1 l = read h l).
  { intros c l H. apply F2. apply (proj2 (proj2 V1) c l H). }
  assert (V1' : valid h1 d).
  { destruct V1 as (C & L & S). split; auto. split; auto. intros c l H. destruct (S c l H) as [Sl Sd].
    split; [lia|]. rewrite (Rd c l H). exact Sd. }
  assert (D : forall c c' l, In (c, l) d -> In (c', l) d2 -> False).
  { intros c c' l H H'. pose proof (proj1 (proj2 (proj2 V1) c l H)). pose proof (B2 c' l H'). lia. }
  assert (Pd : forall c o, path_of h1 d c o = path_of h d c o).
  { intros c o. unfold BreakdownSpec.path_of. destruct (get_class d c) as [l|] eqn:G; auto.
    rewrite (Rd c l) by (apply get_class_in; auto). auto. }
  pose proof (merge_spec d2 h1 d V1' V2 D) as M. destruct (merge h1 d d2) as [h2 d3].
  destruct M as (V3 & L3 & (extra & E3 & Hx) & P3 & F3 & K3).
  assert (In3 : forall c l, In (c, l) d3 -> In (c, l) d \/ In (c, l) d2).
  { intros c l H. rewrite E3 in H. apply in_app_iff in H. destruct H as [H|H]; auto. apply Hx in H. tauto. }
  split; auto. split; [lia|]. split; [|split; [|split; [|split]]].
  - intros l Hl. rewrite F3.
    + rewrite F2 by lia. auto.
    + intros c Hc. pose proof (B1 c l Hc). lia.
  - intros c l H. destruct (In3 c l H) as [H'|H']; [eauto|]. pose proof (B2 c l H'). lia.
  - intros c o. rewrite P3, Pd, P1, P2, paths_app, best_app. auto.
  - intros c l i k q H Hi. destruct (K3 c l i k q H Hi) as (l' & j & q' & [H1|H2] & Hj).
    + rewrite (Rd c l') in Hj by auto. destruct (K1 c l' j k q' H1 Hj) as [p Hp]. exists p. apply in_app_iff. auto.
    + destruct (K2 c l' j k q' H2 Hj) as [p Hp]. exists p. apply in_app_iff. auto.
  - intros c l H. destruct (In3 c l H) as [H'|H'].
    + destruct (N1 c l H') as [o Ho]. exists o. rewrite P3, Pd. apply keep_not_none. auto.
    + destruct (N2 c l H') as [o Ho]. exists o. rewrite P3. apply keep_not_none. auto.
Qed.

Lemma reached_refl h : reached h h [] [].
Proof.
  split; [split; [constructor|split; [constructor|intros c l []]]|]. split; auto. split; auto.
  split; [intros c l []|]. split; [auto|]. split; [intros c l i k q []|intros c l []].
Qed.

Lemma loopf_reached f path l : 
  (forall k x h, In (k, x) l -> exists h' d, f h x (extend path k) = Ok (h', d) /\ reached h h' d (visits (extend path k) x)) ->
  forall h0 h d vs, reached h0 h d vs ->
  exists h' d', loopf f path l h d = Ok (h', d')
    /\ reached h0 h' d' (vs ++ flat_map (fun kx => visits (extend path (fst kx)) (snd kx)) l).
Proof.
  induction l as [|[k x] l IH]; intros Hf h0 h d vs R.
  - simpl. rewrite app_nil_r. eauto.
  - simpl. destruct (Hf k x h (or_introl eq_refl)) as (h1 & d1 & E & R1). rewrite E. simpl.
    pose proof (reached_merge _ _ _ _ _ _ _ R R1) as R2. destruct (merge h1 d d1) as [h2 d2].
    destruct (IH (fun k' x' h' H' => Hf k' x' h' (or_intror H')) _ _ _ _ R2) as (h3 & d3 & E3 & R3).
    exists h3, d3. split; auto. rewrite app_assoc. auto.
Qed.

Theorem breakdown_reached n : forall v h path, height v <= n ->
  exists h' d, breakdown same n h v path = Ok (h', d) /\ reached h h' d (visits path v).
Proof.
  induction n as [|n IH]; intros v h path H; [destruct v; simpl in H; lia|].
  assert (Hf : forall k x h, In (k, x) (children v) ->
    exists h' d, breakdown same n h x (extend path k) = Ok (h', d) /\ reached h h' d (visits (extend path k) x)).
  { intros k x h' Hx. apply IH. pose proof (height_children v k x Hx). lia. }
  rewrite breakdown_step, visits_children.
  destruct v as [|l|l|d|c i a]; try (apply (loopf_reached _ _ _ Hf h h [] [] (reached_refl h))).
  cbn [here]. destruct path as [|ch path].
  - simpl String.eqb. cbn iota beta.
    destruct (loopf_reached _ _ _ Hf h h [] [] (reached_refl h)) as (h' & d' & E & R). rewrite E. cbn [bind].
    pose proof (reached_merge _ _ _ _ _ _ _ (reached_refl h) R) as R2.
    destruct (merge h' [] d') as [h2 d2]. eauto.
  - simpl String.eqb. cbn iota beta. set (p := String ch path) in *.
    set (h1 := h ++ [[(i, p)]]).
    assert (R1 : reached h h1 [(c, List.length h)] [(c, i, p)]).
    { assert (Rl : read h1 (List.length h) = [(i, p)]).
      { unfold read, h1. rewrite app_nth2, Nat.sub_diag by lia. auto. }
      assert (Ll : List.length h1 = S (List.length h)) by (unfold h1; rewrite app_length; simpl; lia).
      split; [|split; [|split; [|split; [|split; [|split]]]]].
      - split; [repeat constructor; auto|]. split; [repeat constructor; auto|].
        intros c' l [E|[]]. injection E as <- <-. split; [lia|]. rewrite Rl.
        intros [|i'] [|j'] o o' q q' Hi Hj; auto; try (destruct i'; discriminate); destruct j'; discriminate.
      - lia.
      - intros l Hl. unfold h1. apply read_app. auto.
      - intros c' l [E|[]]. injection E as <- <-. auto.
      - intros c' o. unfold BreakdownSpec.path_of, get_class, paths. simpl.
        destruct (String.eqb c c'); simpl; auto. rewrite Rl. unfold get_ref. simpl. destruct (same i o); auto.
      - intros c' l j k q [E|[]] Hj. injection E as <- <-. rewrite Rl in Hj.
        destruct j as [|j]; simpl in Hj; [|destruct j; discriminate]. injection Hj as <- <-. exists p. simpl; auto.
      - intros c' l [E|[]]. injection E as <- <-. exists i. unfold BreakdownSpec.path_of, get_class. simpl.
        rewrite String.eqb_refl. simpl. rewrite Rl. unfold get_ref. simpl. rewrite same_refl. discriminate. }
    destruct (loopf_reached _ _ _ Hf h1 h1 [] [] (reached_refl h1)) as (h' & d' & E & R). rewrite E. cbn [bind].
    pose proof (reached_merge _ _ _ _ _ _ _ R1 R) as R2.
    destruct (merge h' [(c, List.length h)] d') as [h2 d2]. eauto.
Qed.
End Same.

(** ** What is visited *)

Lemma nth_enumerate (l : list value) k x : In (k, x) (map (fun ix => (nat_str (fst ix), snd ix)) (enumerate l)) <->
  exists n, k = nat_str n /\ nth_error l n = Some x.
Proof.
  unfold enumerate. rewrite in_map_iff. split.
  - intros ([n y] & E & H). simpl in E. injection E as <- <-. exists n. split; auto.
    apply In_nth_error in H. destruct H as [j Hj].
    assert (G : forall (l : list value) s j n y, nth_error (combine (seq s (List.length l)) l) j = Some (n, y) ->
              n = s + j /\ nth_error l j = Some y).
    { clear. induction l as [|z l IH]; intros s [|j] n y H; simpl in *; try discriminate.
      - injection H as <- <-. split; [lia|auto].
      - apply IH in H. destruct H as [-> H]. split; [lia|auto]. }
    apply G in Hj. destruct Hj as [-> Hj]. auto.
  - intros (n & -> & H). exists (n, x). split; auto.
    assert (G : forall (l : list value) s j y, nth_error l j = Some y -> In (s + j, y) (combine (seq s (List.length l)) l)).
    { clear. induction l as [|z l IH]; intros s [|j] y H; simpl in *; try discriminate.
      - injection H as <-. left. f_equal. lia.
      - right. replace (s + S j) with (S s + j) by lia. auto. }
    apply (G l 0). auto.
Qed.

Lemma in_attributes (a : list (string * value)) (k : string) (x : value) :
  In (k, x) (filter (fun kx => negb (is_seq (snd kx)) && negb (is_dict (snd kx))) a
                 ++ filter (fun kx => is_seq (snd kx)) a ++ filter (fun kx => is_dict (snd kx)) a) <-> In (k, x) a.
Proof.
  rewrite !in_app_iff, !filter_In. simpl. destruct x; simpl; intuition discriminate.
Qed.

Lemma found_step v r c i : found v r c i <->
  match r with
  | [] => exists a, v = Obj c i a
  | k :: r' => exists x, In (k, x) (children v) /\ found x r' c i
  end.
Proof.
  split.
  - intros H. inversion H; subst; simpl; eauto.
    + exists x. split; auto. apply nth_enumerate. eauto.
    + exists x. split; auto. apply nth_enumerate. eauto.
    + exists x. split; auto. apply in_attributes. auto.
  - destruct r as [|k r].
    + intros [a ->]. constructor.
    + intros (x & Hx & F). destruct v as [|l|l|d|c' i' a]; simpl in Hx.
      * tauto.
      * apply nth_enumerate in Hx. destruct Hx as (n & -> & Hn). econstructor; eauto.
      * apply nth_enumerate in Hx. destruct Hx as (n & -> & Hn). econstructor; eauto.
      * econstructor; eauto.
      * econstructor; eauto. apply in_attributes. eauto.
Qed.

Lemma visits_found n : forall v path c i p, height v <= n ->
  (In (c, i, p) (visits path v) <-> exists r, found v r c i /\ p = fold_left extend r path /\ p <> ""%string).
Proof.
  induction n as [|n IH]; intros v path c i p H; [destruct v; simpl in H; lia|].
  rewrite visits_children, in_app_iff, in_flat_map. split.
  - intros [Hh|([k x] & Hx & Hv)].
    + destruct v; simpl in Hh; try tauto. destruct path; simpl in Hh; [tauto|].
      destruct Hh as [E|[]]. injection E as -> -> <-. exists []. split; [constructor|]. split; [auto|congruence].
    + simpl in Hv. apply IH in Hv; [|pose proof (height_children v k x Hx); lia].
      destruct Hv as (r & F & E & N). exists (k :: r). split; auto. apply found_step. eauto.
  - intros (r & F & E & N). apply found_step in F. destruct r as [|k r].
    + left. destruct F as [a ->]. simpl in *. subst p. destruct path; [congruence|]. simpl; auto.
    + right. destruct F as (x & Hx & F). exists (k, x). split; auto. simpl.
      apply IH; [pose proof (height_children v k x Hx); lia|]. exists r. auto.
Qed.

Lemma extend_concat r : forall path, path <> ""%string -> fold_left extend r path = String.concat "." (path :: r).
Proof.
  induction r as [|k r IH]; intros path H; auto.
  cbn [fold_left]. rewrite IH.
  - unfold extend. destruct (String.eqb_spec path ""); [congruence|].
    destruct r as [|k' r]; cbn [String.concat]; rewrite !sapp_assoc; auto.
  - unfold extend. destruct (String.eqb_spec path ""); [congruence|]. destruct path; [congruence|]. simpl. congruence.
Qed.

Lemma extend_text r : fold_left extend r ""%string = path_text r.
Proof.
  induction r as [|k r IH]; auto. cbn [fold_left]. change (extend "" k) with k.
  destruct k as [|ch k]; auto. rewrite extend_concat by congruence. auto.
Qed.

Lemma dots_concat r : (forall k, In k r -> dots k = 0) -> r <> [] -> S (dots (String.concat "." r)) = List.length r.
Proof.
  induction r as [|k [|k' r] IH]; intros H N; [congruence| |].
  - simpl. rewrite H; simpl; auto.
  - change (String.concat "." (k :: k' :: r)) with (k ++ "." ++ String.concat "." (k' :: r))%string.
    rewrite !dots_app. rewrite (H k) by (simpl; auto).
    change (dots ".") with 1.
    assert (E : S (dots (String.concat "." (k' :: r))) = List.length (k' :: r)).
    { apply IH; [|congruence]. intros y Hy. apply H. simpl; auto. }
    cbn [List.length] in *. lia.
Qed.

Lemma dots_text r : (forall k, In k r -> k <> ""%string /\ dots k = 0) -> r <> [] -> S (dots (path_text r)) = List.length r.
Proof.
  intros H N. rewrite <- (dots_concat r); auto.
  - destruct r as [|[|ch k] r]; auto. exfalso. apply (H ""%string); simpl; auto.
  - intros k Hk. apply H. auto.
Qed.

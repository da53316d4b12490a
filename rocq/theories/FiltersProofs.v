(** Proofs about filters. *)
From Coq Require Import String QArith List Bool Lia Sorting.Sorted.
From Verif Require Import Base BaseProofs FiltersModel FiltersSpec.
Import ListNotations.
Open Scope string_scope.

Lemma Qle_bool_false a b : Qle_bool a b = false <-> (b < a)%Q.
Proof.
  split; intros H.
  - apply Qnot_le_lt. intros L. apply Qle_bool_iff in L. congruence.
  - destruct (Qle_bool a b) eqn:E; auto. apply Qle_bool_iff in E.
    exfalso; apply (Qlt_not_le _ _ H E).
Qed.

Lemma Qeq_bool_false a b : Qeq_bool a b = false <-> ~ (a == b)%Q.
Proof.
  split; intros H.
  - intros E. apply Qeq_bool_iff in E. congruence.
  - destruct (Qeq_bool a b) eqn:E; auto. apply Qeq_bool_iff in E. contradiction.
Qed.

Ltac str_cases :=
  repeat match goal with
  | |- context [String.eqb ?s ?t] => destruct (String.eqb_spec s t); subst
  | H : context [String.eqb ?s ?t] |- _ => destruct (String.eqb_spec s t); subst
  end.

Lemma real_operators_known s : In s known_operators <-> exists op, real_operators s = Some op.
Proof.
  split.
  - unfold known_operators, real_operators; simpl; intros H.
    repeat (destruct H as [<-|H]; [simpl; eauto|]). contradiction.
  - intros [op H]. unfold real_operators in H. unfold known_operators.
    str_cases; simpl; tauto || discriminate.
Qed.

Lemma real_operators_sound s op v b :
  real_operators s = Some op -> (op v b = true <-> compares s v b).
Proof.
  assert (Inv : compares s v b ->
      (In s [">"; "gt"] /\ (b < v)%Q) \/ (In s ["<"; "lt"] /\ (v < b)%Q)
      \/ (In s [">="; "ge"; "gte"] /\ (b <= v)%Q) \/ (In s ["<="; "le"; "lte"] /\ (v <= b)%Q)
      \/ (In s ["=="; "eq"] /\ (v == b)%Q) \/ (In s ["!="; "ne"] /\ ~ (v == b)%Q)).
  { intros C; inversion C; subst; tauto. }
  unfold real_operators; intros H.
  str_cases; inversion H; subst; clear H; simpl in Inv;
    rewrite ?negb_true_iff, ?Qle_bool_false, ?Qeq_bool_false, ?Qle_bool_iff, ?Qeq_bool_iff;
    (split; intros G;
     [ first [ apply cmp_gt; [simpl; tauto|assumption] | apply cmp_lt; [simpl; tauto|assumption]
             | apply cmp_ge; [simpl; tauto|assumption] | apply cmp_le; [simpl; tauto|assumption]
             | apply cmp_eq; [simpl; tauto|assumption] | apply cmp_ne; [simpl; tauto|assumption] ]
     | apply Inv in G;
       repeat match goal with H : _ \/ _ |- _ => destruct H | H : _ /\ _ |- _ => destruct H end;
       try assumption; try discriminate; try contradiction ]).
Qed.

Section P.
Variable O : Type.
Variable get : O -> string -> res Q.

Notation filter_one := (filter_one O get).
Notation apply := (filters_list_apply O get).

(** Boolean outcome of one filter on one object, false if it raises. *)
Definition outcome (f : dfilter) (o : O) : bool :=
  match filter_one f o with Ok b => b | Err _ => false end.

(** The specification-level acceptance. *)
Definition accepts (f : dfilter) (o : O) : Prop :=
  exists v, get o (attribute f) = Ok v /\ compares (comparison_operator f) v (bound f).

Lemma filter_one_accepts f o b : filter_one f o = Ok b -> (b = true <-> accepts f o).
Proof.
  unfold FiltersModel.filter_one, accepts.
  destruct (real_operators (comparison_operator f)) eqn:E; simpl; [|discriminate].
  destruct (get o (attribute f)) eqn:G; simpl; [|discriminate].
  intros H; inversion H; subst. rewrite (real_operators_sound _ _ _ _ E).
  split; [eauto|]. intros [v [Hv C]]. inversion Hv; subst; auto.
Qed.

Lemma booleans_outcome f os bs :
  mapM (filter_one f) os = Ok bs ->
  bs = map (outcome f) os /\ forall o, In o os -> exists b, filter_one f o = Ok b.
Proof.
  intros H. apply mapM_ok_inv in H. induction H as [|o b os bs Hb _ [IH1 IH2]]; simpl.
  - split; [reflexivity|tauto].
  - split.
    + unfold outcome at 1; rewrite Hb, IH1; reflexivity.
    + intros o' [->|I]; eauto.
Qed.

Lemma lists_outcome fs os lists :
  mapM (fun f => filter_get_booleans_index O get f os) fs = Ok lists ->
  lists = map (fun f => map (outcome f) os) fs
  /\ forall f o, In f fs -> In o os -> exists b, filter_one f o = Ok b.
Proof.
  intros H. apply mapM_ok_inv in H. induction H as [|f l fs lists Hf _ [IH1 IH2]]; simpl.
  - split; [reflexivity|tauto].
  - apply booleans_outcome in Hf. destruct Hf as [-> Hf]. subst. split; [reflexivity|].
    intros f' o [->|I] Io; eauto.
Qed.

Lemma zip_two_map {A} (g : A -> bool) (h : A -> list bool) os :
  zip_two (map g os) (map h os) = map (fun o => g o :: h o) os.
Proof. induction os; simpl; auto. rewrite IHos; reflexivity. Qed.

Lemma zip_star_map (fs : list dfilter) os :
  fs <> [] ->
  zip_star (map (fun f => map (outcome f) os) fs) = map (fun o => map (fun f => outcome f o) fs) os.
Proof.
  induction fs as [|f fs IH]; [congruence|]. intros _.
  destruct fs as [|f' fs'].
  - simpl. rewrite map_map. reflexivity.
  - change (zip_star (map (fun f => map (outcome f) os) (f :: f' :: fs')))
      with (zip_two (map (outcome f) os) (zip_star (map (fun f => map (outcome f) os) (f' :: fs')))).
    rewrite IH by congruence. rewrite zip_two_map. reflexivity.
Qed.

Lemma sum_bools_existsb l : negb (Nat.eqb (sum_bools l) 0) = existsb (fun b => b) l.
Proof. induction l as [|[] l IH]; simpl; auto. Qed.

Lemma forallb_map {A B} (p : B -> bool) (g : A -> B) l : forallb p (map g l) = forallb (fun x => p (g x)) l.
Proof. induction l; simpl; auto. rewrite IHl; reflexivity. Qed.
Lemma existsb_map {A B} (p : B -> bool) (g : A -> B) l : existsb p (map g l) = existsb (fun x => p (g x)) l.
Proof. induction l; simpl; auto. rewrite IHl; reflexivity. Qed.

Lemma outcome_accepts f o b : filter_one f o = Ok b -> (outcome f o = true <-> accepts f o).
Proof. intros H. unfold outcome; rewrite H. apply filter_one_accepts; auto. Qed.

Lemma apply_and fs os r :
  fs <> [] -> apply (mkFiltersList fs "and") os = Ok r ->
  exists keep, r = filter keep os
    /\ forall o, In o os -> (keep o = true <-> forall f, In f fs -> accepts f o).
Proof.
  intros NE H. unfold filters_list_apply, get_booleans_index in H; simpl in H.
  destruct (mapM _ fs) eqn:E; simpl in H; [|discriminate].
  apply lists_outcome in E. destruct E as [-> D].
  rewrite zip_star_map in H by auto. rewrite map_map in H.
  inversion H; subst; clear H. unfold filter_apply. rewrite compress_map.
  eexists; split; [reflexivity|]. intros o Ho. simpl.
  rewrite forallb_map, forallb_forall. split; intros G f Hf.
  - destruct (D f o Hf Ho) as [b Hb]. apply (outcome_accepts f o b Hb). apply G; auto.
  - destruct (D f o Hf Ho) as [b Hb]. apply (outcome_accepts f o b Hb). apply G; auto.
Qed.

Lemma apply_or_like lop fs os r :
  lop = "or" \/ lop = "xor" ->
  fs <> [] -> apply (mkFiltersList fs lop) os = Ok r ->
  exists keep, r = filter keep os
    /\ forall o, In o os -> (keep o = true <-> exists f, In f fs /\ accepts f o).
Proof.
  intros L NE H. unfold filters_list_apply, get_booleans_index in H; simpl in H.
  destruct (mapM _ fs) eqn:E; simpl in H; [|discriminate].
  apply lists_outcome in E. destruct E as [-> D].
  unfold combine_booleans_lists in H. rewrite zip_star_map in H by auto.
  assert (H' : Ok (filter_apply O os (map (existsb (fun b => b))
             (map (fun o => map (fun f => outcome f o) fs) os))) = Ok r).
  { rewrite <- H. destruct L as [->| ->]; simpl; auto.
    do 2 f_equal. apply map_ext. intros l; symmetry; apply sum_bools_existsb. }
  clear H. rewrite map_map in H'. inversion H'; subst; clear H'.
  unfold filter_apply. rewrite compress_map.
  eexists; split; [reflexivity|]. intros o Ho. simpl.
  rewrite existsb_map, existsb_exists. split; intros [f [Hf G]]; exists f; split; auto.
  - destruct (D f o Hf Ho) as [b Hb]. apply (outcome_accepts f o b Hb); auto.
  - destruct (D f o Hf Ho) as [b Hb]. apply (outcome_accepts f o b Hb); auto.
Qed.

Lemma apply_succeeds fs lop os :
  In lop ["and"; "or"; "xor"] ->
  (forall f, In f fs -> In (comparison_operator f) known_operators) ->
  (forall f o, In f fs -> In o os -> exists v, get o (attribute f) = Ok v) ->
  exists r, apply (mkFiltersList fs lop) os = Ok r.
Proof.
  intros L K G. unfold filters_list_apply, get_booleans_index; simpl.
  assert (E : exists lists, mapM (fun f => filter_get_booleans_index O get f os) fs = Ok lists).
  { clear L. induction fs as [|f fs IH]; simpl; [eauto|].
    destruct IH as [ls Hls]; [intros; apply K; simpl; auto|intros; apply G; simpl; auto|].
    assert (E : exists bs, mapM (filter_one f) os = Ok bs).
    { assert (G' : forall o, In o os -> exists v, get o (attribute f) = Ok v)
        by (intros; apply G; simpl; auto).
      clear Hls G. assert (Kf := K f (or_introl eq_refl)).
      apply real_operators_known in Kf. destruct Kf as [op Hop].
      induction os as [|o os' IHo]; simpl; [eauto|].
      destruct IHo as [bs Hbs]; [intros; apply G'; simpl; auto|].
      destruct (G' o (or_introl eq_refl)) as [v Hv].
      unfold FiltersModel.filter_one at 1. rewrite Hop; simpl. rewrite Hv; simpl.
      rewrite Hbs; simpl. eauto. }
    destruct E as [bs Hbs]. unfold filter_get_booleans_index at 1. rewrite Hbs; simpl.
    rewrite Hls; simpl; eauto. }
  destruct E as [lists ->]; simpl.
  simpl in L. destruct L as [<-|[<-|[<-|[]]]]; simpl; eauto.
Qed.

Lemma apply_unknown fs lop os r :
  ~ In lop ["and"; "or"; "xor"] -> apply (mkFiltersList fs lop) os <> Ok r.
Proof.
  intros L H. unfold filters_list_apply, get_booleans_index in H; simpl in H.
  destruct (mapM _ fs); simpl in H; [|discriminate].
  unfold combine_booleans_lists in H. simpl in L.
  str_cases; try (apply L; tauto). simpl in H; discriminate.
Qed.

Lemma apply_empty lop os :
  In lop ["and"; "or"; "xor"] -> apply (mkFiltersList [] lop) os = Ok [].
Proof.
  simpl; intros [<-|[<-|[<-|[]]]]; unfold filters_list_apply, get_booleans_index; simpl;
    destruct os; reflexivity.
Qed.

End P.

Lemma compress_seq_spec bs start :
  StronglySorted lt (compress (seq start (length bs)) bs)
  /\ forall i, In i (compress (seq start (length bs)) bs)
               <-> (start <= i)%nat /\ nth_error bs (i - start) = Some true.
Proof.
  revert start; induction bs as [|b bs IH]; intros start; simpl.
  - split; [constructor|]. intros i; split; [tauto|]. intros [_ H]. destruct (i - start)%nat; discriminate.
  - destruct (IH (S start)) as [S1 S2]. destruct b.
    + split.
      * constructor; auto. apply Forall_forall. intros i Hi. apply S2 in Hi. lia.
      * intros i; simpl. rewrite S2. split.
        -- intros [<-|[H1 H2]]; [split; [lia|]; rewrite Nat.sub_diag; auto|].
           split; [lia|]. replace (i - start)%nat with (S (i - S start))%nat by lia. auto.
        -- intros [H1 H2]. destruct (Nat.eq_dec start i); auto. right. split; [lia|].
           replace (i - start)%nat with (S (i - S start))%nat in H2 by lia. auto.
    + split; auto. intros i. rewrite S2. split.
      * intros [H1 H2]. split; [lia|]. replace (i - start)%nat with (S (i - S start))%nat by lia. auto.
      * intros [H1 H2]. destruct (Nat.eq_dec start i).
        { subst; rewrite Nat.sub_diag in H2; discriminate. }
        split; [lia|]. replace (i - start)%nat with (S (i - S start))%nat in H2 by lia. auto.
Qed.

Lemma indexlist_spec bs :
  StronglySorted lt (booleanlist_to_indexlist bs)
  /\ forall i, In i (booleanlist_to_indexlist bs) <-> nth_error bs i = Some true.
Proof.
  unfold booleanlist_to_indexlist. destruct (compress_seq_spec bs 0) as [A B]. split; auto.
  intros i. rewrite B. rewrite Nat.sub_0_r. split; [tauto|]. split; [lia|auto].
Qed.

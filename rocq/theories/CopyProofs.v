From Coq Require Import ZArith Bool String Ascii Lia List.
From Verif Require Import Base BaseProofs PyValue DataModel DataSpec DataProofs SerialProofs CopyModel CopySpec.
Import ListNotations.
Open Scope string_scope.
Open Scope list_scope.

Lemma keys_fun {A} k (x y : A) (d : list (key * A)) : NoDup (map fst d) -> In (k, x) d -> In (k, y) d -> x = y.
Proof. intros N X Y. apply (lookup_nodup k x d N) in X. apply (lookup_nodup k y d N) in Y. congruence. Qed.

Lemma in_keys {A} k (x : A) (d : list (key * A)) : In (k, x) d -> In k (map fst d).
Proof. intros H. apply in_map_iff. exists (k, x). auto. Qed.

Section P.
Variable arguments : string -> list string.
Variable construct : string -> list (string * mval) -> res (list (key * mval)).
Variable same : nat -> nat -> bool.
Variable tuple_key : key -> bool.
Variable h0 : heap.
Notation args := (args arguments).
Notation part := (part arguments h0).
Notation plain := (plain tuple_key).
Notation copyable := (copyable arguments h0 tuple_key).
Notation constructible := (constructible arguments construct).
Notation deepcopy_value := (deepcopy_value arguments construct same tuple_key).
Notation copy_object := (copy_object arguments construct).
Notation search_memo := (search_memo same).
Notation set_memo := (set_memo same).
Notation held := (held same).
Notation depth_below := (depth_below arguments h0).
Notation copies := (copies arguments construct h0 same).

Variable U : nat -> Prop.
Hypothesis U_part : forall a b, U a -> part a b -> U b.
Hypothesis U_copyable : forall a, U a -> copyable a.
Hypothesis U_constructible : forall a c d, U a -> nth_error h0 a = Some (c, d) -> constructible c.
Hypothesis U_parts : forall a b, U a -> part a b -> held b a = false.

Definition at_ (m : list (nat * nat)) (a : nat) : nat := match search_memo a m with Some b => b | None => O end.
Definition covered (m : list (nat * nat)) (v : mval) : Prop := forall a, refers v a -> search_memo a m <> None.

Lemma NoDup_app_single {A} (l : list A) x : NoDup l -> ~ In x l -> NoDup (l ++ [x]).
Proof.
  intros N H. rewrite <- (rev_involutive (l ++ [x])). apply NoDup_rev. rewrite rev_app_distr. simpl. constructor; [rewrite <- in_rev; auto|apply NoDup_rev; auto].
Qed.
Lemma search_app a m ext : search_memo a m <> None -> search_memo a (m ++ ext) = search_memo a m.
Proof.
  unfold CopyModel.search_memo. induction m as [|kb m IH]; simpl; [intros H; contradiction|].
  destruct (held (fst kb) a); auto.
Qed.
Lemma search_none a m : search_memo a m = None <-> (forall k b, In (k, b) m -> held k a = false).
Proof.
  unfold CopyModel.search_memo. induction m as [|[k b] m IH]; simpl; [split; auto; intros _ k b []|].
  destruct (held k a) eqn:E; simpl.
  - split; [discriminate|]. intros H. rewrite (H k b) in E; auto. discriminate.
  - rewrite IH. split; intros H; [intros k' b' [I|I]; [injection I as <- <-; auto|eauto]|eauto].
Qed.
Lemma set_memo_app a b m : search_memo a m = None -> set_memo a b m = m ++ [(a, b)].
Proof.
  rewrite search_none. induction m as [|[k c] m IH]; simpl; intros H; auto. rewrite (H k c) by auto. rewrite IH; auto.
  intros k' b' I. apply (H k' b'). auto.
Qed.
Lemma held_refl a : held a a = true.
Proof. unfold CopyModel.held. rewrite PeanoNat.Nat.eqb_refl. reflexivity. Qed.
Lemma covered_app m ext v : covered m v -> covered (m ++ ext) v.
Proof. intros C a R. rewrite search_app by auto. auto. Qed.
Lemma image_ext f g v : (forall a, refers v a -> f a = g a) -> image f v = image g v.
Proof.
  induction v using mval_ind'; simpl; intros E; auto.
  - f_equal. apply map_ext_in. intros x I. rewrite Forall_forall in H. apply H; auto. intros a R. apply E. eapply rf_list; eauto.
  - f_equal. apply map_ext_in. intros x I. rewrite Forall_forall in H. apply H; auto. intros a R. apply E. eapply rf_tuple; eauto.
  - f_equal. apply map_ext_in. intros [k x] I. rewrite Forall_forall in H. simpl. f_equal. apply (H _ I). intros a R. apply E. eapply rf_dict; eauto.
  - f_equal. apply E. constructor.
Qed.
Lemma image_app m ext v : covered m v -> image (at_ (m ++ ext)) v = image (at_ m) v.
Proof. intros C. apply image_ext. intros a R. unfold at_. rewrite search_app; auto. Qed.

Definition made (m : list (nat * nat)) (h : heap) (k b : nat) : Prop :=
  exists c d kw attrs, nth_error h0 k = Some (c, d) /\ map fst kw = args c
    /\ (forall s y, In (s, y) kw -> exists v, In (KStr s, v) d /\ covered m v /\ y = image (at_ m) v)
    /\ construct c kw = Ok attrs /\ nth_error h b = Some (c, attrs).
Definition Inv (s : state) : Prop :=
  (exists new, objects s = h0 ++ new) /\ NoDup (map snd (memo s)) /\ NoDup (map fst (memo s))
  /\ forall k b, In (k, b) (memo s) -> U k /\ length h0 <= b < length (objects s) /\ made (memo s) (objects s) k b.
Definition step (s s' : state) (K : nat -> Prop) : Prop :=
  exists new ext, objects s' = objects s ++ new /\ memo s' = memo s ++ ext /\ (forall k b, In (k, b) ext -> K k) /\ Inv s'.

Lemma made_app m h k b ext new : made m h k b -> b < length h -> made (m ++ ext) (h ++ new) k b.
Proof.
  intros [c [d [kw [attrs [E [F [A [C N]]]]]]]] L. exists c, d, kw, attrs. repeat split; auto.
  - intros s y I. destruct (A s y I) as [v [V [CV ->]]]. exists v. split; auto. split; [apply covered_app; auto|]. symmetry. apply image_app; auto.
  - rewrite nth_error_app1; auto.
Qed.
Lemma step_refl s K : Inv s -> step s s K.
Proof. intros I. exists [], []. rewrite !app_nil_r. split; auto. split; auto. split; auto. intros k b []. Qed.
Lemma step_trans s s1 s2 (K1 K2 K : nat -> Prop) : step s s1 K1 -> step s1 s2 K2 -> (forall k, K1 k -> K k) -> (forall k, K2 k -> K k) -> step s s2 K.
Proof.
  intros [n1 [e1 [A1 [B1 [C1 _]]]]] [n2 [e2 [A2 [B2 [C2 I2]]]]] H1 H2. exists (n1 ++ n2), (e1 ++ e2).
  rewrite A2, A1, B2, B1, !app_assoc. split; auto. split; auto. split; auto. intros k b I. apply in_app_iff in I. destruct I; eauto.
Qed.

Section EachOk.
Context {A B : Type}.
Variable g : A -> M B.
Variable R : list (nat * nat) -> A -> B -> Prop.
Variable K : A -> nat -> Prop.
Hypothesis R_app : forall m ext x y, R m x y -> R (m ++ ext) x y.
Lemma each_ok l : (forall x, In x l -> forall s, Inv s -> exists y s', g x s = (Ok y, s') /\ step s s' (K x) /\ R (memo s') x y) ->
  forall s, Inv s -> exists ys s', each g l s = (Ok ys, s') /\ step s s' (fun k => exists x, In x l /\ K x k) /\ Forall2 (R (memo s')) l ys.
Proof.
  induction l as [|x l IH]; intros H s I; simpl.
  - exists [], s. split; auto. split; auto using step_refl.
  - destruct (H x (or_introl eq_refl) s I) as [y [s1 [E [S1 R1]]]]. unfold bindM. rewrite E.
    assert (I1 : Inv s1) by (destruct S1 as [? [? [? [? [? ?]]]]]; auto).
    destruct (IH (fun x' J => H x' (or_intror J)) s1 I1) as [ys [s2 [E2 [S2 R2]]]]. rewrite E2. exists (y :: ys), s2. split; auto. split.
    + apply (step_trans s s1 s2 _ _ _ S1 S2).
      * intros k ?. exists x. simpl; auto.
      * intros k [x' [J ?]]. exists x'. simpl. auto.
    + constructor; auto. destruct S2 as [? [ext [_ [-> _]]]]. auto.
Qed.
End EachOk.

Lemma fold_set (e : list (key * mval)) : forall acc, NoDup (map fst (acc ++ e)) ->
  fold_left (fun acc kv => set_key (fst kv) (snd kv) acc) e acc = acc ++ e.
Proof.
  induction e as [|[k x] e IH]; simpl; intros acc N; [rewrite app_nil_r; auto|].
  assert (S : set_key k x acc = acc ++ [(k, x)]).
  { assert (~ In k (map fst acc)) as NI.
    { rewrite map_app in N. simpl in N. apply NoDup_remove_2 in N. intros J. apply N. apply in_or_app; auto. }
    clear - NI. induction acc as [|[j y] acc IH]; simpl; auto. destruct (key_eqb k j) eqn:E.
    - apply key_eqb_eq in E. subst. exfalso. apply NI. simpl. auto.
    - rewrite IH; auto. intros J. apply NI. simpl; auto. }
  rewrite S, IH; rewrite <- app_assoc; auto.
Qed.

Lemma args_In c s : In s (args c) <-> In s (arguments c) /\ s <> "self".
Proof.
  unfold CopySpec.args. rewrite filter_In, negb_true_iff, String.eqb_neq. tauto.
Qed.

(** what a value is copied to *)
Definition Rv (m : list (nat * nat)) (v w : mval) : Prop := covered m v /\ w = image (at_ m) v.
Lemma Rv_app m ext v w : Rv m v w -> Rv (m ++ ext) v w.
Proof. intros [C ->]. split; [apply covered_app; auto|]. symmetry. apply image_app; auto. Qed.
Definition Kv (v : mval) (k : nat) : Prop := refers v k \/ exists a, refers v a /\ part a k.

Definition value_ok (cp : mval -> M mval) (v : mval) : Prop :=
  forall s, Inv s -> exists w s', cp v s = (Ok w, s') /\ step s s' (Kv v) /\ Rv (memo s') v w.

Lemma object_ok cp a s : U a -> Inv s ->
  (forall c d s x, nth_error h0 a = Some (c, d) -> In s (args c) -> In (KStr s, x) d -> value_ok cp x) ->
  exists s1 c d kw attrs, copy_object cp a s = (Ok (length (objects s1)), mkState (objects s1 ++ [(c, attrs)]) (memo s1))
   /\ step s s1 (part a) /\ nth_error h0 a = Some (c, d) /\ map fst kw = args c
   /\ (forall t y, In (t, y) kw -> exists v, In (KStr t, v) d /\ covered (memo s1) v /\ y = image (at_ (memo s1)) v)
   /\ construct c kw = Ok attrs.
Proof.
  intros Ua I IH. destruct (U_copyable a Ua) as [c [d [E [ND [NA AR]]]]].
  unfold CopyModel.copy_object. destruct I as [[new HN] I]. assert (E' : nth_error (objects s) a = Some (c, d)).
  { rewrite HN, nth_error_app1; auto. apply nth_error_Some. congruence. }
  rewrite E'. unfold copy_arguments. change (filter (fun arg => negb (arg =? "self")) (arguments c)) with (args c).
  destruct (each_ok (fun t => match lookup (KStr t) d with None => raise AttributeError | Some x => bindM (cp x) (fun y => ret (t, y)) end)
              (fun m t ty => fst ty = t /\ exists v, In (KStr t, v) d /\ Rv m v (snd ty)) (fun t k => exists v, In (KStr t, v) d /\ Kv v k)) with (l := args c) (s := s)
    as [kw [s1 [E1 [S1 F]]]].
  - intros m ext t ty [H [v [V R]]]. split; auto. exists v. split; auto. apply Rv_app. auto.
  - intros t T s' I'. destruct (AR t T) as [x [X P]]. rewrite (proj2 (lookup_nodup _ _ _ ND) X).
    destruct (IH c d t x E T X s' I') as [w [s2 [E2 [S2 R2]]]]. exists (t, w), s2. unfold bindM. rewrite E2. split; auto. split; [|split; simpl; eauto].
    destruct S2 as [n2 [e2 [A [B [C D]]]]]. exists n2, e2. split; auto. split; auto. split; auto. intros k b KB. exists x. eauto.
  - split; eauto.
  - rewrite E1. assert (MF : map fst kw = args c).
    { clear - F. induction F as [|t [t' y] l m [H _] F IH]; simpl in *; congruence. }
    destruct (U_constructible a c d Ua E kw MF) as [attrs AT]. rewrite AT. exists s1, c, d, kw, attrs. split; auto. split.
    + destruct S1 as [n2 [e2 [A [B [C D]]]]]. exists n2, e2. split; auto. split; auto. split; auto. intros k b KB.
      destruct (C k b KB) as [t [T [v [V [KV|[a' [RA PA]]]]]]]; [eapply pt_direct; eauto|].
      apply pt_trans with a'; auto. eapply pt_direct; eauto.
    + split; auto. split; auto. split; auto. intros t y TY. clear - F TY. induction F as [|t' [t2 y2] l m [H1 [v [V R]]] F IH]; [destruct TY|].
      destruct TY as [TY|TY]; auto. injection TY as -> ->. simpl in *. subst t'. destruct R. eauto.
Qed.

Lemma value_copied n : forall v, depth_below n v -> plain v -> (forall a, refers v a -> U a) -> value_ok (deepcopy_value n) v.
Proof.
  induction n as [|n IH]; intros v D P UV; [destruct D|]. intros s I. destruct v as [x|l|l|d|a]; simpl in *.
  - inversion P as [x' L| | | |]; subst. rewrite L. exists (MLeaf x), s. split; auto. split; [apply step_refl; auto|]. split; [|reflexivity].
    intros a R. inversion R.
  - inversion P as [|l' F| | |]; subst.
    destruct (each_ok (deepcopy_value n) Rv Kv Rv_app l) with (s := s) as [ys [s1 [E1 [S1 F1]]]]; auto.
    { rewrite Forall_forall in *. intros x X. apply IH; auto. intros a R. apply UV. eapply rf_list; eauto. }
    unfold bindM. rewrite E1. exists (MList ys), s1. split; auto. split.
    + destruct S1 as [n2 [e2 [A [B [C D2]]]]]. exists n2, e2. split; auto. split; auto. split; auto. intros k b KB. destruct (C k b KB) as [x [X [KX|[a [RA PA]]]]].
      * left. eapply rf_list; eauto.
      * right. exists a. split; auto. eapply rf_list; eauto.
    + split.
      * intros a R. inversion R as [|l' x a' X RX| |]; subst. destruct (Forall2_in_left _ _ _ _ F1 X) as [y [_ [CX _]]]. auto.
      * simpl. f_equal. clear - F1. induction F1 as [|x y l m [_ ->] F IH]; simpl; congruence.
  - inversion P as [| |l' F| |]; subst.
    destruct (each_ok (deepcopy_value n) Rv Kv Rv_app l) with (s := s) as [ys [s1 [E1 [S1 F1]]]]; auto.
    { rewrite Forall_forall in *. intros x X. apply IH; auto. intros a R. apply UV. eapply rf_tuple; eauto. }
    unfold bindM. rewrite E1. exists (MList ys), s1. split; auto. split.
    + destruct S1 as [n2 [e2 [A [B [C D2]]]]]. exists n2, e2. split; auto. split; auto. split; auto. intros k b KB. destruct (C k b KB) as [x [X [KX|[a [RA PA]]]]].
      * left. eapply rf_tuple; eauto.
      * right. exists a. split; auto. eapply rf_tuple; eauto.
    + split.
      * intros a R. inversion R as [| |l' x a' X RX|]; subst. destruct (Forall2_in_left _ _ _ _ F1 X) as [y [_ [CX _]]]. auto.
      * simpl. f_equal. clear - F1. induction F1 as [|x y l m [_ ->] F IH]; simpl; congruence.
  - inversion P as [| | |d' ND TK F|]; subst.
    destruct (each_ok (fun kv => bindM (deepcopy_value n (snd kv)) (fun y => if tuple_key (fst kv) then raise TypeError else ret (fst kv, y)))
                (fun m kv ky => fst ky = fst kv /\ Rv m (snd kv) (snd ky)) (fun kv k => Kv (snd kv) k)) with (l := d) (s := s) as [ys [s1 [E1 [S1 F1]]]]; auto.
    { intros m ext x y [H R]. split; auto. apply Rv_app; auto. }
    { rewrite Forall_forall in *. intros [k x] X s' I'. simpl.
      destruct (IH x) with (s := s') as [w [s2 [E2 [S2 R2]]]]; auto; [apply (D _ X)|apply (F _ X)|intros a R; apply UV; eapply rf_dict; eauto|].
      unfold bindM. rewrite E2. pose proof (TK _ X) as TX. simpl in TX. rewrite TX. exists (k, w), s2. split; [reflexivity|]. split; auto. }
    unfold bindM at 1. rewrite E1.
    assert (EK : map fst ys = map fst d) by (clear - F1; induction F1 as [|x y l m [H _] F IH]; simpl; congruence).
    rewrite fold_set by (simpl; rewrite EK; auto). simpl. exists (MDict ys), s1. split; auto. split.
    + destruct S1 as [n2 [e2 [A [B [C D2]]]]]. exists n2, e2. split; auto. split; auto. split; auto. intros k b KB.
      destruct (C k b KB) as [[j x] [X [KX|[a [RA PA]]]]]; simpl in *.
      * left. eapply rf_dict; eauto.
      * right. exists a. split; auto. eapply rf_dict; eauto.
    + split.
      * intros a R. inversion R as [| | |d' k x a' X RX]; subst. destruct (Forall2_in_left _ _ _ _ F1 X) as [y [_ [_ [CX _]]]]. auto.
      * simpl. f_equal. clear - F1. induction F1 as [|[k x] [k' y] l m [H1 [_ H2]] F IH]; simpl in *; [auto|]. congruence.
  - destruct (search_memo a (memo s)) as [b|] eqn:SM.
    + exists (MRef b), s. split; auto. split; [apply step_refl; auto|]. split.
      * intros a' R. inversion R; subst. congruence.
      * simpl. unfold at_. rewrite SM. reflexivity.
    + assert (Ua : U a) by (apply UV; constructor).
      destruct (object_ok (deepcopy_value n) a s Ua I) as [s1 [c [d [kw [attrs [E1 [S1 [EA [MF [AR CO]]]]]]]]]].
      { intros c d t x EA T X. apply IH; [eapply D; eauto| |].
        - destruct (U_copyable a Ua) as [c' [d' [E' [ND [_ AR]]]]]. rewrite EA in E'. injection E' as <- <-.
          destruct (AR t T) as [x' [X' P']]. rewrite (keys_fun _ _ _ _ ND X X'). auto.
        - intros b R. apply (U_part a b Ua). eapply pt_direct; eauto. }
      rewrite E1. destruct S1 as [n2 [e2 [A [B [C I1]]]]].
      assert (SN : search_memo a (memo s1) = None).
      { rewrite search_none in SM |- *. rewrite B. intros k b KB. apply in_app_iff in KB. destruct KB as [KB|KB]; [eauto|].
        apply (U_parts a k Ua). eauto. }
      cbn [objects memo]. rewrite set_memo_app by auto. exists (MRef (length (objects s1))). eexists. split; [reflexivity|].
      assert (FA : search_memo a (memo s1 ++ [(a, length (objects s1))]) = Some (length (objects s1))).
      { pose proof SN as SN'. rewrite search_none in SN'. unfold CopyModel.search_memo. clear - SN'. induction (memo s1) as [|[k b] m IHm]; simpl.
        - rewrite held_refl. reflexivity.
        - rewrite (SN' k b) by (left; auto). apply IHm. intros k' b' J. apply (SN' k' b'). right; auto. }
      split; [|split].
      * exists (n2 ++ [(c, attrs)]), (e2 ++ [(a, length (objects s1))]). cbn [objects memo]. rewrite A, B, !app_assoc. split; auto. split; auto. split.
        -- intros k b KB. apply in_app_iff in KB. destruct KB as [KB|[KB|[]]]; [right; exists a; split; [constructor|eauto]|]. injection KB as <- <-. left. constructor.
        -- rewrite <- A, <- B. destruct I1 as [[new HN] [NDS [NDF MA]]]. unfold Inv. cbn [objects memo]. split; [|split; [|split]].
           ++ exists (new ++ [(c, attrs)]). rewrite HN, app_assoc. auto.
           ++ rewrite map_app. simpl. apply NoDup_app_single; auto. intros J. apply in_map_iff in J. destruct J as [[k b] [EB J]]. simpl in EB. subst b.
              destruct (MA _ _ J) as [_ [L _]]. lia.
           ++ rewrite map_app. simpl. apply NoDup_app_single; auto. intros J. apply in_map_iff in J. destruct J as [[k b] [EB J]]. simpl in EB. subst k.
              rewrite search_none in SN. pose proof (SN a b J) as H. rewrite held_refl in H. discriminate.
           ++ intros k b KB. rewrite app_length. simpl. apply in_app_iff in KB. destruct KB as [KB|[KB|[]]].
              ** destruct (MA k b KB) as [UK [LB MD]]. split; auto. split; [lia|]. apply made_app; auto. lia.
              ** injection KB as <- <-. split; auto. split; [rewrite HN, app_length; lia|]. exists c, d, kw, attrs. split; auto. split; auto. split; [|split; auto].
                 --- intros t y TY. destruct (AR t y TY) as [v [V [CV ->]]]. exists v. split; auto. split; [apply covered_app; auto|]. symmetry. apply image_app; auto.
                 --- rewrite nth_error_app2 by lia. rewrite PeanoNat.Nat.sub_diag. reflexivity.
      * intros a' R. inversion R; subst. cbn [memo]. rewrite FA. discriminate.
      * cbn [memo]. simpl. unfold at_. rewrite FA. reflexivity.
Qed.
End P.

Section Q.
Variable arguments : string -> list string.
Variable construct : string -> list (string * mval) -> res (list (key * mval)).
Variable same : nat -> nat -> bool.
Variable tuple_key : key -> bool.
Variable h : heap.
Notation args := (args arguments).
Notation part := (part arguments h).
Notation held := (held same).
Notation search_memo := (search_memo same).

Definition inside (a x : nat) : Prop := x = a \/ part a x.

Lemma inside_part a x y : inside a x -> part x y -> inside a y.
Proof. intros [->|H] P; right; auto. eapply pt_trans; eauto. Qed.

Lemma copy_ok n a :
  (forall x, inside a x -> copyable arguments h tuple_key x) ->
  (forall x c d, inside a x -> nth_error h x = Some (c, d) -> constructible arguments construct c) ->
  (forall x y, inside a x -> part x y -> held y x = false) ->
  depth_below arguments h (S n) (MRef a) ->
  exists f rep h', copy arguments construct same tuple_key n a h = (Ok (f a), h ++ h')
    /\ copies arguments construct h same (h ++ h') f rep a
    /\ (forall x y, x <> a -> y <> a -> (forall z, part a z -> held z x = held z y) -> met arguments h rep a x -> met arguments h rep a y -> rep x = rep y)
    /\ (forall x, rep x = a -> x = a).
Proof.
  intros UC UK UP D.
  assert (Ua : inside a a) by (left; auto).
  assert (I0 : Inv arguments construct same h (inside a) (mkState h [])).
  { split; [exists []; simpl; rewrite app_nil_r; auto|]. split; [constructor|]. split; [constructor|]. intros k b []. }
  destruct (object_ok arguments construct same tuple_key h (inside a) UC UK (deepcopy_value arguments construct same tuple_key n) a _ Ua I0)
    as [s1 [c [d [kw [attrs [E1 [S1 [EA [MF [AR CO]]]]]]]]]].
  { intros c d t x EA T X. apply value_copied with (U := inside a); auto.
    - intros x' y Hx Hy. eapply inside_part; eauto.
    - simpl in D. eapply D; eauto.
    - destruct (UC a Ua) as [c' [d' [E' [ND [_ AR]]]]]. rewrite EA in E'. injection E' as <- <-.
      destruct (AR t T) as [x' [X' P']]. rewrite (keys_fun _ _ _ _ ND X X'). auto.
    - intros b R. right. eapply pt_direct; eauto. }
  unfold copy. rewrite E1. destruct S1 as [new [ext [A [B [C [[new' HN] [NDS [NDF MA]]]]]]]]. cbn [objects memo] in *. simpl in B. subst ext.
  assert (new' = new) by (rewrite A in HN; apply app_inv_head in HN; auto). subst new'.
  set (b0 := length (objects s1)) in *.
  set (f := fun x => if Nat.eqb x a then b0 else at_ same (memo s1) x).
  set (rep := fun x => if Nat.eqb x a then a else match find (fun kb => held (fst kb) x) (memo s1) with Some kb => fst kb | None => x end).
  assert (NP : ~ part a a).
  { intros P. pose proof (UP a a Ua P) as H. rewrite held_refl in H. discriminate. }
  assert (IMG : forall x v, (exists c d s, nth_error h x = Some (c, d) /\ In s (args c) /\ In (KStr s, v) d) ->
            inside a x -> image (at_ same (memo s1)) v = image f v).
  { intros x v [c' [d' [s [E [T V]]]]] IX. apply image_ext. intros y R. unfold f. destruct (Nat.eqb y a) eqn:EY; auto.
    apply PeanoNat.Nat.eqb_eq in EY. subst y. exfalso. apply NP. assert (part x a) by (eapply pt_direct; eauto). destruct IX as [->|P]; auto. eapply pt_trans; eauto. }
  assert (CO1 : forall v, (exists c d s, nth_error h a = Some (c, d) /\ In s (args c) /\ In (KStr s, v) d) -> covered same (memo s1) v).
  { intros v [c' [d' [s [E [T V]]]]]. rewrite EA in E. injection E as <- <-.
    assert (K : In s (map fst kw)) by (rewrite MF; auto). apply in_map_iff in K. destruct K as [[s' y] [<- K]]. destruct (AR _ _ K) as [v' [V' [CV _]]].
    destruct (UC a Ua) as [c2 [d2 [E' [ND _]]]]. rewrite EA in E'. injection E' as <- <-. simpl in *. rewrite (keys_fun _ _ _ _ ND V V'). auto. }
  assert (CO2 : forall k b v, In (k, b) (memo s1) -> (exists c d s, nth_error h k = Some (c, d) /\ In s (args c) /\ In (KStr s, v) d) -> covered same (memo s1) v).
  { intros k b v I [c' [d' [s [E [T V]]]]]. destruct (MA k b I) as [UKk [_ [c2 [d2 [kw2 [at2 [E2 [MF2 [AR2 _]]]]]]]]]. rewrite E in E2. injection E2 as <- <-.
    assert (K : In s (map fst kw2)) by (rewrite MF2; auto). apply in_map_iff in K. destruct K as [[s' y] [<- K]]. destruct (AR2 _ _ K) as [v' [V' [CV _]]].
    destruct (UC k UKk) as [c2 [d2 [E' [ND _]]]]. rewrite E in E'. injection E' as <- <-. simpl in *. rewrite (keys_fun _ _ _ _ ND V V'). auto. }
  assert (ENT : forall x, met arguments h rep a x -> x = a \/ x <> a /\ exists k b, find (fun kb => held (fst kb) x) (memo s1) = Some (k, b)).
  { induction 1 as [|x c1 d1 s v y M IH E T V R]; [auto|]. destruct (PeanoNat.Nat.eq_dec y a) as [->|NY]; [auto|]. right. split; auto.
    assert (CV : covered same (memo s1) v).
    { unfold rep in E. destruct (Nat.eqb x a) eqn:EX.
      - apply CO1. eauto 6.
      - destruct IH as [->|[_ [k [b F]]]]; [rewrite PeanoNat.Nat.eqb_refl in EX; discriminate|]. rewrite F in E. simpl in E.
        apply find_some in F. destruct F as [F _]. eapply CO2; eauto 6. }
    specialize (CV y R). unfold CopyModel.search_memo in CV. destruct (find (fun kb => held (fst kb) y) (memo s1)) as [[k b]|]; eauto. contradiction CV. reflexivity. }
  assert (RT : rep a = a /\ f a = b0) by (unfold rep, f; rewrite PeanoNat.Nat.eqb_refl; auto).
  assert (RO : forall x k b, x <> a -> find (fun kb => held (fst kb) x) (memo s1) = Some (k, b) ->
                 rep x = k /\ f x = b /\ In (k, b) (memo s1) /\ part a k /\ (k = x \/ same k x = true)).
  { intros x k b N F. unfold rep, f, at_, CopyModel.search_memo. rewrite (proj2 (PeanoNat.Nat.eqb_neq x a) N), F. simpl.
    split; auto. split; auto. apply find_some in F. destruct F as [F H]. split; auto. split; [eauto|]. simpl in H. unfold CopyModel.held in H. apply orb_true_iff in H.
    destruct H as [H|H]; auto. apply PeanoNat.Nat.eqb_eq in H. auto. }
  exists f, rep, (new ++ [(c, attrs)]). split; [rewrite (proj2 RT); rewrite A, app_assoc; auto|]. split; [split|split].
  - intros x M. destruct (ENT x M) as [->|[N [k [b F]]]].
    + rewrite (proj1 RT), (proj2 RT). unfold b0. split; [rewrite A, app_length; lia|]. split; auto. split; auto. exists c, d, kw, attrs. split; auto. split; auto. split; [|split; auto].
      * intros s y I. destruct (AR s y I) as [v [V [CV ->]]]. exists v. split; auto. apply (IMG a); auto. exists c, d, s. split; auto. split; auto.
        rewrite <- MF. apply in_map_iff. exists (s, image (at_ same (memo s1)) v). auto.
      * rewrite app_assoc, <- A. rewrite nth_error_app2 by (unfold b0; lia). unfold b0. rewrite PeanoNat.Nat.sub_diag. reflexivity.
    + destruct (RO x k b N F) as [-> [-> [I [P H]]]]. destruct (MA k b I) as [UKk [L [c2 [d2 [kw2 [at2 [E2 [MF2 [AR2 [CO3 N2]]]]]]]]]].
      split; [lia|]. split; auto. split; auto. exists c2, d2, kw2, at2. split; auto. split; auto. split; [|split; auto].
      * intros s y J. destruct (AR2 s y J) as [v [V [CV ->]]]. exists v. split; auto. apply (IMG k); auto. exists c2, d2, s. split; auto. split; auto.
        rewrite <- MF2. apply in_map_iff. exists (s, image (at_ same (memo s1)) v). auto.
      * rewrite app_assoc, <- A. rewrite nth_error_app1; auto. lia.
  - assert (NEW : forall k b, In (k, b) (memo s1) -> b <> b0).
    { intros k b I. destruct (MA k b I) as [_ [L _]]. unfold b0. lia. }
    intros x y Mx My. destruct (ENT x Mx) as [->|[Nx [k [b F]]]]; destruct (ENT y My) as [->|[Ny [k' [b' F']]]].
    + tauto.
    + destruct (RO y k' b' Ny F') as [-> [-> [I [P H]]]]. rewrite (proj1 RT), (proj2 RT). split; intros E; [exfalso; eapply NEW; eauto|subst; contradiction].
    + destruct (RO x k b Nx F) as [-> [-> [I [P H]]]]. rewrite (proj1 RT), (proj2 RT). split; intros E; [exfalso; eapply NEW; eauto|subst; contradiction].
    + destruct (RO x k b Nx F) as [-> [-> [I [P H]]]]. destruct (RO y k' b' Ny F') as [-> [-> [I' [P' H']]]]. split; intros E; subst.
      * clear - NDS I I'. induction (memo s1) as [|[k0 b0] m IH]; [destruct I|]. simpl in *. inversion NDS as [|? ? N1 N2]; subst.
        destruct I as [I|I]; destruct I' as [I'|I']; auto; try congruence.
        -- injection I as -> ->. exfalso. apply N1. apply in_map_iff. exists (k', b'). auto.
        -- injection I' as -> ->. exfalso. apply N1. apply in_map_iff. exists (k, b'). auto.
      * clear - NDF I I'. induction (memo s1) as [|[k0 b0] m IH]; [destruct I|]. simpl in *. inversion NDF as [|? ? N1 N2]; subst.
        destruct I as [I|I]; destruct I' as [I'|I']; auto; try congruence.
        -- injection I as -> ->. exfalso. apply N1. apply in_map_iff. exists (k', b'). auto.
        -- injection I' as -> ->. exfalso. apply N1. apply in_map_iff. exists (k', b). auto.
  - intros x y Nx Ny H Mx My. destruct (ENT x Mx) as [E|[_ [k [b F]]]]; [contradiction|]. destruct (ENT y My) as [E|[_ [k' [b' F']]]]; [contradiction|].
    rewrite (proj1 (RO x k b Nx F)), (proj1 (RO y k' b' Ny F')).
    assert (FF : find (fun kb => held (fst kb) x) (memo s1) = find (fun kb => held (fst kb) y) (memo s1)).
    { clear - H C. induction (memo s1) as [|[k b] m IH]; simpl; auto. rewrite (H k) by (eapply C; left; eauto). destruct (held k y); auto.
      apply IH. intros k' b' I. apply (C k' b'). right; auto. }
    rewrite FF, F' in F. congruence.
  - intros x. unfold rep. destruct (Nat.eqb x a) eqn:EX; [apply PeanoNat.Nat.eqb_eq in EX; auto|].
    destruct (find _ (memo s1)) as [[k b]|] eqn:F; auto. simpl. intros ->. apply find_some in F. destruct F as [F _]. exfalso. apply NP. eauto.
Qed.
End Q.

Section D.
Variable non_serializable non_data_eq : string -> list string.
Variable arguments : string -> list string.
Variable construct : string -> list (string * mval) -> res (list (key * mval)).
Variable same : nat -> nat -> bool.
Variable h h' : heap.
Variable f rep : nat -> nat.
Variable a : nat.
Hypothesis CP : copies arguments construct h same h' f rep a.
Hypothesis ALIKE : forall x t, met arguments h rep a x -> reads h (MRef x) t -> reads h (MRef (rep x)) t.
Notation met := (met arguments h rep a).
Notation data_eq := (data_eq non_serializable non_data_eq).

Lemma items_keys {A} (R : mval -> A -> Prop) d (e : list (key * A)) :
  Forall2 (fun kx ky => fst kx = fst ky /\ R (snd kx) (snd ky)) d e -> map fst d = map fst e.
Proof. induction 1 as [|x y d e [H _] F IH]; simpl; congruence. Qed.
Lemma items_left {A} (R : mval -> A -> Prop) d (e : list (key * A)) k x :
  Forall2 (fun kx ky => fst kx = fst ky /\ R (snd kx) (snd ky)) d e -> In (k, x) d -> exists y, In (k, y) e /\ R x y.
Proof. intros F I. destruct (Forall2_in_left _ _ _ _ F I) as [[k' y] [J [E H]]]. simpl in *. subst. eauto. Qed.
Lemma items_right {A} (R : mval -> A -> Prop) d (e : list (key * A)) k y :
  Forall2 (fun kx ky => fst kx = fst ky /\ R (snd kx) (snd ky)) d e -> In (k, y) e -> exists x, In (k, x) d /\ R x y.
Proof. intros F I. destruct (Forall2_in_right _ _ _ _ F I) as [[k' x] [J [E H]]]. simpl in *. subst. eauto. Qed.
Lemma items_map (g : mval -> mval) d (e : list (key * val)) (R : mval -> val -> Prop) :
  Forall2 (fun kx ky => fst kx = fst ky /\ R (snd kx) (snd ky)) (map (fun kv => (fst kv, g (snd kv))) d) e <->
  Forall2 (fun kx ky => fst kx = fst ky /\ R (g (snd kx)) (snd ky)) d e.
Proof.
  revert e. induction d as [|[k x] d IH]; intros e; simpl; split; intros F; inversion F; subst; constructor; auto; apply IH; auto.
Qed.

Hypothesis KEEPS : forall c kw attrs, construct c kw = Ok attrs -> NoDup (map fst attrs) /\ forall s y, In (s, y) kw -> In (KStr s, y) attrs.

Lemma copy_data_eq t : wf_val t -> nan_free t ->
  everywhere (fun v => forall c d s, v = VObj c d -> In (KStr s) (map fst d) -> counts non_serializable non_data_eq c (KStr s) -> In s (args arguments c)) t ->
  forall v t', reads h v t -> (forall x, refers v x -> met x) -> reads h' (image f v) t' -> data_eq t t' = true.
Proof.
  assert (LEAF : forall t v t', leaf t = true -> nan_free t -> reads h v t -> reads h' (image f v) t' -> data_eq t t' = true).
  { intros t0 v t' L N R R'. inversion R; subst; try discriminate. simpl in R'. inversion R'; subst.
    destruct t'; try discriminate; simpl; auto using eqb_reflx, Z.eqb_refl, String.eqb_refl. apply isclose_refl. apply everywhere_here in N. intros ->. apply N. reflexivity. }
  induction t using val_ind'; intros W N C v t' R M R'; try (eapply LEAF; eauto; reflexivity); try (inversion R; subst; discriminate).
  - inversion R as [x L|l0 m F| | |]; subst; [discriminate|]. simpl in R'. inversion R' as [|l0' m' F'| | |]; subst.
    rewrite (data_eq_seq_iff non_serializable non_data_eq (VList l) _ l eq_refl). exists m'. split; auto.
    pose proof (wf_seq _ _ W eq_refl) as Wl. pose proof (everywhere_seq _ _ _ N eq_refl) as Nl. pose proof (everywhere_seq _ _ _ C eq_refl) as Cl.
    assert (M' : forall x y, In x l0 -> refers x y -> met y) by (intros x y I J; apply M; eapply rf_list; eauto).
    clear - H Wl Nl Cl F F' M'. revert l m' H Wl Nl Cl F F'. induction l0 as [|x l0 IH]; intros l m' H Wl Nl Cl F F'; inversion F; subst; simpl in F'; inversion F'; subst; constructor;
      inversion H; inversion Wl; inversion Nl; inversion Cl; subst.
    + eauto using in_eq.
    + apply IH; auto. intros xx yy I J. eapply M'; [right; eauto|eauto].
  - inversion R as [x L| |l0 m F| |]; subst; [discriminate|]. simpl in R'. inversion R' as [|l0' m' F'| | |]; subst.
    rewrite (data_eq_seq_iff non_serializable non_data_eq (VTuple l) _ l eq_refl). exists m'. split; auto.
    pose proof (wf_seq _ _ W eq_refl) as Wl. pose proof (everywhere_seq _ _ _ N eq_refl) as Nl. pose proof (everywhere_seq _ _ _ C eq_refl) as Cl.
    assert (M' : forall x y, In x l0 -> refers x y -> met y) by (intros x y I J; apply M; eapply rf_tuple; eauto).
    clear - H Wl Nl Cl F F' M'. revert l m' H Wl Nl Cl F F'. induction l0 as [|x l0 IH]; intros l m' H Wl Nl Cl F F'; inversion F; subst; simpl in F'; inversion F'; subst; constructor;
      inversion H; inversion Wl; inversion Nl; inversion Cl; subst.
    + eauto using in_eq.
    + apply IH; auto. intros xx yy I J. eapply M'; [right; eauto|eauto].
  - inversion R as [x L| | |d0 e F|]; subst; [discriminate|]. simpl in R'. inversion R' as [| | |d0' e' F'|]; subst.
    apply items_map in F'. rewrite data_eq_dict_iff. intros k x I. destruct (items_right _ _ _ _ _ F I) as [xv [IV RV]].
    destruct (items_left (fun m t => reads h' (image f m) t) _ _ _ _ F' IV) as [y [IY RY]]. exists y. split.
    + apply In_lookup; auto. apply items_keys in F. apply (items_keys (fun m t => reads h' (image f m) t)) in F'. rewrite <- F', F. inversion W; auto.
    + rewrite Forall_forall in H. eapply (H _ I); eauto; [apply (wf_dict_in _ _ _ W I)|apply (everywhere_dict _ _ _ _ N I)|apply (everywhere_dict _ _ _ _ C I)|].
      intros z Z. apply M. eapply rf_dict; eauto.
  - inversion R as [x L| | | |x c0 dx e E F]; subst; [discriminate|]. simpl in R'.
    assert (Mx : met x) by (apply M; constructor).
    pose proof (ALIKE _ _ Mx R) as RR. inversion RR as [| | | |x1 c1 dr e1 Er Fr]; subst.
    destruct (proj1 CP x Mx) as [_ [_ [_ [c2 [d2 [kw [attrs [E2 [MF [AR [CO NE]]]]]]]]]]]. rewrite Er in E2. injection E2 as <- <-.
    inversion R' as [| | | |x2 c3 d3 e' E3 F3]; subst. rewrite NE in E3. injection E3 as <- <-.
    destruct (KEEPS _ _ _ CO) as [NDA KP].
    rewrite data_eq_obj_iff. split; auto. intros k t I CK.
    assert (KS : exists s, k = KStr s).
    { inversion W as [| | | | | | | |? ? _ KF _|]; subst. rewrite Forall_forall in KF. apply (KF _ I). }
    destruct KS as [s ->].
    assert (SA : In s (args arguments c)) by (apply (everywhere_here _ _ C c d s eq_refl); auto; eapply in_keys; eauto).
    assert (K : In s (map fst kw)) by (rewrite MF; auto). apply in_map_iff in K. destruct K as [[s' y] [<- K]]. simpl in *.
    destruct (AR _ _ K) as [v' [V' ->]]. destruct (items_right _ _ _ _ _ Fr I) as [xv [IV RV]].
    assert (NDR : NoDup (map fst dr)) by (rewrite (items_keys _ _ _ Fr); inversion W; auto).
    rewrite (keys_fun _ _ _ _ NDR V' IV) in *.
    destruct (items_left _ _ _ _ _ F3 (KP _ _ K)) as [y [IY RY]]. exists y. split.
    + apply In_lookup; auto. rewrite <- (items_keys _ _ _ F3). auto.
    + rewrite Forall_forall in H. eapply (H _ I); eauto; [apply (wf_obj_in _ _ _ _ W I)|apply (everywhere_obj _ _ _ _ _ N I)|apply (everywhere_obj _ _ _ _ _ C I)|].
      intros z Z. eapply me_arg; eauto.
Qed.

Hypothesis ONLY : forall c kw attrs k y, construct c kw = Ok attrs -> In (k, y) attrs -> (exists s, k = KStr s /\ In (s, y) kw) \/ exists x, y = MLeaf x /\ leaf x = true.
Lemma copy_readable t : wf_val t -> forall v, reads h v t -> (forall x, refers v x -> met x) -> exists t', reads h' (image f v) t'.
Proof.
  induction t using val_ind'; intros W v R M;
    try (inversion R as [x L| | | |]; subst; simpl; eexists; apply rd_leaf; auto; fail).
  - inversion R as [x L|l0 m F| | |]; subst; [discriminate|]. simpl.
    assert (EX : exists m', Forall2 (reads h') (map (image f) l0) m').
    { pose proof (wf_seq _ _ W eq_refl) as Wl.
      assert (M' : forall x y, In x l0 -> refers x y -> met y) by (intros x y I J; apply M; eapply rf_list; eauto).
      clear - H Wl F M'. revert l H Wl F. induction l0 as [|x l0 IH]; intros l H Wl F; inversion F; subst; simpl; [exists []; constructor|].
      inversion H; inversion Wl; subst. destruct (IH (fun x0 y0 I => M' x0 y0 (or_intror I)) l') as [m' F']; auto.
      match goal with K : wf_val y -> _ |- _ => destruct (K ltac:(auto) x) as [t' T]; auto end; [intros z Z; eapply M'; [left; eauto|eauto]|].
      exists (t' :: m'). constructor; auto. }
    destruct EX as [m' F']. exists (VList m'). constructor; auto.
  - inversion R as [x L| |l0 m F| |]; subst; [discriminate|]. simpl.
    assert (EX : exists m', Forall2 (reads h') (map (image f) l0) m').
    { pose proof (wf_seq _ _ W eq_refl) as Wl.
      assert (M' : forall x y, In x l0 -> refers x y -> met y) by (intros x y I J; apply M; eapply rf_tuple; eauto).
      clear - H Wl F M'. revert l H Wl F. induction l0 as [|x l0 IH]; intros l H Wl F; inversion F; subst; simpl; [exists []; constructor|].
      inversion H; inversion Wl; subst. destruct (IH (fun x0 y0 I => M' x0 y0 (or_intror I)) l') as [m' F']; auto.
      match goal with K : wf_val y -> _ |- _ => destruct (K ltac:(auto) x) as [t' T]; auto end; [intros z Z; eapply M'; [left; eauto|eauto]|].
      exists (t' :: m'). constructor; auto. }
    destruct EX as [m' F']. exists (VList m'). constructor; auto.
  - inversion R as [x L| | |d0 e F|]; subst; [discriminate|]. simpl.
    assert (EX : exists e', Forall2 (fun kx ky => fst kx = fst ky /\ reads h' (image f (snd kx)) (snd ky)) d0 e').
    { apply Forall2_exists. intros [k x] I. destruct (items_left _ _ _ _ _ F I) as [y [IY RY]]. rewrite Forall_forall in H.
      destruct (H _ IY) with (v := x) as [t' T]; auto; [apply (wf_dict_in _ _ _ W IY)|intros z Z; apply M; eapply rf_dict; eauto|]. exists (k, t'). auto. }
    destruct EX as [e' F']. exists (VDict e'). constructor. apply items_map. auto.
  - inversion R as [x L| | | |x c0 dx e E F]; subst; [discriminate|]. simpl.
    assert (Mx : met x) by (apply M; constructor).
    pose proof (ALIKE _ _ Mx R) as RR. inversion RR as [| | | |x1 c1 dr e1 Er Fr]; subst.
    destruct (proj1 CP x Mx) as [_ [_ [_ [c2 [d2 [kw [attrs [E2 [MF [AR [CO NE]]]]]]]]]]]. rewrite Er in E2. injection E2 as <- <-.
    assert (EX : exists e', Forall2 (fun kx ky => fst kx = fst ky /\ reads h' (snd kx) (snd ky)) attrs e').
    { apply Forall2_exists. intros [k y] I. destruct (ONLY _ _ _ _ _ CO I) as [[s [-> J]]|[z [-> L]]]; [|exists (k, z); split; auto; constructor; auto].
      destruct (AR _ _ J) as [v' [V' ->]]. destruct (items_left _ _ _ _ _ Fr V') as [xt [IT RT]]. rewrite Forall_forall in H.
      destruct (H _ IT) with (v := v') as [t' T]; auto; [apply (wf_obj_in _ _ _ _ W IT)| |exists (KStr s, t'); auto].
      intros z Z. eapply me_arg; eauto. rewrite <- MF. apply in_map_iff. exists (s, image f v'). auto. }
    destruct EX as [e' F']. exists (VObj c e'). econstructor; eauto.
Qed.
End D.

(** ** What a copy that succeeds or fails tells, when only an object is equal to itself *)
Section Q.
Variable arguments : string -> list string.
Variable construct : string -> list (string * mval) -> res (list (key * mval)).
Variable same : nat -> nat -> bool.
Variable tuple_key : key -> bool.
Variable h0 : heap.
Notation args := (args arguments).
Notation part := (part arguments h0).
Notation deepcopy_value := (deepcopy_value arguments construct same tuple_key).
Notation copy_object := (copy_object arguments construct).

Definition extends {A} (m : M A) : Prop := forall s, exists e, objects (snd (m s)) = objects s ++ e.
Lemma extends_ret {A} (x : A) : extends (ret x).
Proof. intros s. exists []. simpl. rewrite app_nil_r. auto. Qed.
Lemma extends_raise {A} e : extends (@raise A e).
Proof. intros s. exists []. simpl. rewrite app_nil_r. auto. Qed.
Lemma extends_bind {A B} (m : M A) (f : A -> M B) : extends m -> (forall x, extends (f x)) -> extends (bindM m f).
Proof.
  intros H F s. unfold bindM. destruct (H s) as [e E]. destruct (m s) as [[x|x] s1]; simpl in *; [|eauto].
  destruct (F x s1) as [e' E']. exists (e ++ e'). rewrite E', E, app_assoc. auto.
Qed.
Lemma extends_each {A B} (f : A -> M B) l : (forall x, extends (f x)) -> extends (each f l).
Proof.
  intros F. induction l as [|x l IH]; simpl; [apply extends_ret|].
  apply extends_bind; auto. intros y. apply extends_bind; auto. intros ys. apply extends_ret.
Qed.
Lemma extends_object copy a : (forall v, extends (copy v)) -> extends (copy_object copy a).
Proof.
  intros C s. unfold CopyModel.copy_object. destruct (nth_error (objects s) a) as [[c d]|]; [|exists []; simpl; rewrite app_nil_r; auto].
  assert (X : forall l, extends (copy_arguments copy d l)).
  { intros l. apply extends_each. intros t. destruct (lookup (KStr t) d); [|apply extends_raise]. apply extends_bind; auto. intros; apply extends_ret. }
  match goal with |- context [copy_arguments copy d ?l s] => destruct (X l s) as [e E]; destruct (copy_arguments copy d l s) as [[kw|x] s1] end; simpl in *; [|eauto].
  destruct (construct c kw); simpl; [|eauto]. rewrite E, <- app_assoc. eauto.
Qed.
Lemma extends_value n : forall v, extends (deepcopy_value n v).
Proof.
  induction n as [|n IH]; intros v; cbn [CopyModel.deepcopy_value]; [apply extends_raise|].
  destruct v as [x|l|l|d|a].
  - destruct (leaf x); [apply extends_ret|apply extends_raise].
  - apply extends_bind; [apply extends_each; auto|intros; apply extends_ret].
  - apply extends_bind; [apply extends_each; auto|intros; apply extends_ret].
  - apply extends_bind; [|intros; apply extends_ret]. apply extends_each. intros kv. apply extends_bind; auto.
    intros y. destruct (tuple_key (fst kv)); [apply extends_raise|apply extends_ret].
  - intros s. destruct (search_memo same a (memo s)); [exists []; simpl; rewrite app_nil_r; auto|].
    destruct (extends_object _ a IH s) as [e E]. destruct (copy_object (deepcopy_value n) a s) as [[b|x] s1]; simpl in *; [eauto|].
    destruct x; simpl; eauto.
    destruct (extends_object _ a IH (mkState (objects s1) [])) as [e' E']. simpl in E'.
    destruct (copy_object (deepcopy_value n) a (mkState (objects s1) [])) as [[b|x] s2]; simpl in *; exists (e ++ e'); rewrite E', E, app_assoc; auto.
Qed.

Notation possible := (possible tuple_key).
Definition complete (x : nat) : Prop := forall c d, nth_error h0 x = Some (c, d) ->
  forall s, In s (args c) -> exists v, lookup (KStr s) d = Some v /\ possible v.
Definition good (x : nat) : Prop := complete x /\ forall y, part x y -> complete y.

Hypothesis SAME : forall x y, same x y = true -> x = y.

Definition inv (s : state) : Prop := (exists e, objects s = h0 ++ e) /\ forall k b, In (k, b) (memo s) -> good k.
(** [m] keeps the invariant, and [R] holds when it succeeds *)
Definition tells {A} (m : M A) (R : Prop) : Prop := forall s, inv s -> inv (snd (m s)) /\ forall x, fst (m s) = Ok x -> R.

Lemma tells_bind {A B} (m : M A) (f : A -> M B) (R1 R2 : Prop) : tells m R1 -> (forall x, tells (f x) R2) -> tells (bindM m f) (R1 /\ R2).
Proof.
  intros T F s I. destruct (T s I) as [I1 O1]. unfold bindM. destruct (m s) as [[x|x] s1]; simpl in *.
  - destruct (F x s1 I1) as [I2 O2]. split; auto. intros y Y. split; [apply (O1 x); auto|apply (O2 y); auto].
  - split; auto. discriminate.
Qed.
Lemma tells_ret {A} (x : A) : tells (ret x) True.
Proof. intros s I. simpl. auto. Qed.
Lemma tells_raise {A} e (R : Prop) : tells (@raise A e) R.
Proof. intros s I. simpl. split; auto. discriminate. Qed.
Lemma tells_weaken {A} (m : M A) (R R' : Prop) : (R -> R') -> tells m R -> tells m R'.
Proof. intros W T s I. destruct (T s I) as [I1 O]. split; auto. intros x X. apply W, (O x X). Qed.
Lemma tells_each {A B} (f : A -> M B) (R : A -> Prop) l : (forall x, tells (f x) (R x)) -> tells (each f l) (Forall R l).
Proof.
  intros F. induction l as [|x l IH]; simpl; [eapply tells_weaken; [|apply tells_ret]; auto|].
  apply tells_weaken with (R x /\ Forall R l /\ True); [intros [H [H' _]]; constructor; auto|].
  apply tells_bind; auto. intros y. apply tells_bind; auto. intros ys. apply tells_ret.
Qed.

Definition refs_good (v : mval) : Prop := possible v /\ forall x, refers v x -> good x.

Lemma part_unfold x y : part x y -> exists c d s v b, nth_error h0 x = Some (c, d) /\ In s (args c) /\ In (KStr s, v) d /\ refers v b /\ (b = y \/ part b y).
Proof.
  induction 1 as [a c d s x b E A V R|a b b' P1 IH1 P2 IH2]; [exists c, d, s, x, b; auto 6|].
  destruct IH1 as (c & d & s & v & z & E & A & V & R & Z). exists c, d, s, v, z. repeat split; auto.
  right. destruct Z as [->|Z]; auto. eapply pt_trans; eauto.
Qed.

Hypothesis KEYS : forall x c d, nth_error h0 x = Some (c, d) -> NoDup (map fst d).

Lemma tells_object copy a : (forall v, tells (copy v) (refs_good v)) -> tells (copy_object copy a) (good a).
Proof.
  intros C s I. unfold CopyModel.copy_object.
  destruct (nth_error (objects s) a) as [[c d]|] eqn:N; [|split; auto; discriminate].
  assert (X : forall l, tells (copy_arguments copy d l) (Forall (fun t => exists v, lookup (KStr t) d = Some v /\ refs_good v) l)).
  { intros l. apply tells_each. intros t. destruct (lookup (KStr t) d) as [v|]; [|apply tells_raise].
    eapply tells_weaken; [|apply tells_bind; [apply (C v)|intros; apply tells_ret]]. intros [G _]. eauto. }
  fold (args c). destruct (X (args c) s I) as [I1 O1].
  destruct (copy_arguments copy d (args c) s) as [[kw|x] s1]; simpl in *; [|split; auto; discriminate].
  specialize (O1 kw eq_refl). rewrite Forall_forall in O1.
  destruct (construct c kw) as [attrs|]; simpl; [|split; auto; discriminate].
  split; [destruct I1 as [[e E] K]; split; auto; simpl; rewrite E, <- app_assoc; eauto|]. intros _ _.
  destruct I as [[e E] K]. split.
  - intros c' d' N' t T. assert ((c', d') = (c, d)) as Q.
    { rewrite E, nth_error_app1 in N by (apply nth_error_Some; congruence). congruence. }
    injection Q as -> ->. destruct (O1 t T) as (v & L & P & _). eauto.
  - intros y P. apply part_unfold in P. destruct P as (c' & d' & t & v & b & N' & T & V & R & B).
    assert ((c', d') = (c, d)) as Q.
    { rewrite E, nth_error_app1 in N by (apply nth_error_Some; congruence). congruence. }
    injection Q as -> ->. destruct (O1 t T) as (v' & L & _ & G).
    assert (v' = v) as -> by (apply (lookup_nodup _ _ _ (KEYS a c d N')) in V; congruence).
    destruct (G b R) as [G1 G2]. destruct B as [<-|B]; auto.
Qed.

Lemma tells_value n : forall v, tells (deepcopy_value n v) (refs_good v).
Proof.
  induction n as [|n IH]; intros v; cbn [CopyModel.deepcopy_value]; [apply tells_raise|].
  destruct v as [x|l|l|d|a].
  - destruct (leaf x) eqn:L; [|apply tells_raise]. eapply tells_weaken; [|apply tells_ret]. intros _. split; [constructor; auto|]. intros y R; inversion R.
  - eapply tells_weaken; [|apply tells_bind; [apply tells_each, IH|intros; apply tells_ret]].
    intros [F _]. rewrite Forall_forall in F. split; [constructor; apply Forall_forall; intros y Y; apply F; auto|].
    intros y R. inversion R; subst. eapply F; eauto.
  - eapply tells_weaken; [|apply tells_bind; [apply tells_each, IH|intros; apply tells_ret]].
    intros [F _]. rewrite Forall_forall in F. split; [constructor; apply Forall_forall; intros y Y; apply F; auto|].
    intros y R. inversion R; subst. eapply F; eauto.
  - eapply tells_weaken; [|apply tells_bind; [apply tells_each with (R := fun kv => refs_good (snd kv) /\ tuple_key (fst kv) = false)|intros; apply tells_ret]].
    + intros [F _]. rewrite Forall_forall in F. split.
      * constructor. apply Forall_forall. intros kv Y. destruct (F kv Y) as [[P _] T]. auto.
      * intros y R. inversion R as [| | |d' k x a I R']; subst. destruct (F _ I) as [[_ G] _]. apply G; auto.
    + intros kv. apply tells_bind; auto. intros y. destruct (tuple_key (fst kv)); [apply tells_raise|].
      eapply tells_weaken; [|apply tells_ret]. auto.
  - assert (RG : good a -> refs_good (MRef a)) by (intros G; split; [constructor|]; intros x R; inversion R; subst; auto).
    assert (SM : forall m b, (forall k b, In (k, b) m -> good k) -> good a -> forall k c, In (k, c) (set_memo same a b m) -> good k).
    { intros m b H G. induction m as [|[k c] m IHm]; simpl.
      - intros k' c' [Q|[]]. injection Q as <- <-. auto.
      - destruct (held same k a); intros k' c' [Q|Q]; try (injection Q as <- <-); eauto using in_eq, in_cons. }
    intros s I. destruct (search_memo same a (memo s)) as [b|] eqn:S.
    + split; auto. intros _ _. apply RG. unfold search_memo in S. destruct (find _ _) as [[k b']|] eqn:F; [|discriminate].
      apply find_some in F. destruct F as [F1 F2]. unfold held in F2. simpl in F2. apply orb_true_iff in F2.
      assert (k = a) as <- by (destruct F2 as [F2|F2]; [apply PeanoNat.Nat.eqb_eq in F2|]; auto). eapply I; eauto.
    + destruct (tells_object _ a IH s I) as [I1 O1]. destruct (copy_object (deepcopy_value n) a s) as [[b|x] s1]; simpl in *.
      * specialize (O1 b eq_refl). split; auto. destruct I1 as [E K]. split; simpl; auto. eapply SM; eauto.
      * destruct x; try (split; [assumption|discriminate]).
        assert (I1' : inv (mkState (objects s1) [])) by (split; [apply I1|simpl; intros ? ? []]).
        destruct (tells_object _ a IH _ I1') as [I2 O2].
        destruct (copy_object (deepcopy_value n) a (mkState (objects s1) [])) as [[b|x] s2]; simpl in *.
        -- specialize (O2 b eq_refl). split; auto. split; simpl; [apply I2|]. eapply SM; eauto. apply I1.
        -- split; [|discriminate]. split; simpl; [apply I2|apply I1].
Qed.
End Q.

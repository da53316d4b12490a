(** Lemmas on data equality, hash and diff. *)
From Coq Require Import ZArith QArith Qabs Lia Lqa Bool String Ascii Permutation List.
From Verif Require Import Base BaseProofs PyValue DataModel DataSpec.
Import ListNotations.
Open Scope string_scope.
Open Scope list_scope.

(** ** Generalities *)
Lemma forallb2_Forall2 {A B} (f : A -> B -> bool) l : forall m,
  length l = length m -> (forallb2 f l m = true <-> Forall2 (fun x y => f x y = true) l m).
Proof.
  induction l as [|x l IH]; intros [|y m] L; simpl in *; try discriminate.
  - split; auto.
  - rewrite andb_true_iff, IH by lia. split; [intros []; constructor; auto|intros H; inversion H; auto].
Qed.

Lemma Forall2_impl_in {A B} (P R : A -> B -> Prop) l m :
  Forall2 P l m -> (forall x y, In x l -> In y m -> P x y -> R x y) -> Forall2 R l m.
Proof.
  intros H. induction H; intros K; constructor.
  - apply K; simpl; auto.
  - apply IHForall2. intros. apply K; simpl; auto.
Qed.

Lemma Forall2_nth {A B} (P : A -> B -> Prop) l m : Forall2 P l m ->
  forall i x y, nth_error l i = Some x -> nth_error m i = Some y -> P x y.
Proof.
  intros H. induction H; intros [|i] a b E F; simpl in *; try discriminate.
  - congruence.
  - eauto.
Qed.

Lemma Forall2_length {A B} (P : A -> B -> Prop) l m : Forall2 P l m -> length l = length m.
Proof. intros H. induction H; simpl; auto. Qed.

Lemma Forall2_flip' {A B} (P : A -> B -> Prop) l m : Forall2 P l m -> Forall2 (fun y x => P x y) m l.
Proof. intros H. induction H; constructor; auto. Qed.

Lemma nodup_items {A} (d : list (key * A)) : NoDup (map fst d) -> NoDup d.
Proof.
  induction d as [|x d IH]; simpl; intros H; [constructor|]. inversion H; subst. constructor; auto.
  intros I. apply H2. apply in_map. auto.
Qed.

Lemma nodup_value {A} (d : list (key * A)) k x y : NoDup (map fst d) -> In (k, x) d -> In (k, y) d -> x = y.
Proof. intros ND I J. apply (lookup_nodup k _ d ND) in I, J. congruence. Qed.

Lemma in_key {A} (d : list (key * A)) k x : In (k, x) d -> In k (map fst d).
Proof. intros I. apply in_map_iff. exists (k, x). auto. Qed.
Lemma key_in_item {A} (d : list (key * A)) k : In k (map fst d) -> exists x, In (k, x) d.
Proof. intros I. apply in_map_iff in I. destruct I as [[j x] [<- I]]. eauto. Qed.

(** ** Floats *)
Lemma isclose_sym a b : isclose a b = isclose b a.
Proof.
  destruct a as [x| | |], b as [y| | |]; auto. unfold isclose.
  assert (E : (Qabs (x - y) == Qabs (y - x))%Q).
  { rewrite <- Qabs_opp. apply Qabs_wd. ring. }
  assert (K : forall q, Qle_bool (Qabs (x - y)) q = Qle_bool (Qabs (y - x)) q).
  { intros q. destruct (Qle_bool (Qabs (y - x)) q) eqn:H.
    - apply Qle_bool_iff. apply Qle_bool_iff in H. rewrite E. auto.
    - destruct (Qle_bool (Qabs (x - y)) q) eqn:H'; auto. apply Qle_bool_iff in H'. rewrite E in H'.
      apply Qle_bool_iff in H'. congruence. }
  rewrite !K. rewrite (orb_comm (Qle_bool _ (tolerance * Qabs y))). reflexivity.
Qed.

Lemma isclose_refl a : a <> NaN -> isclose a a = true.
Proof.
  destruct a as [x| | |]; intros H; [|reflexivity|reflexivity|contradiction]. unfold isclose.
  assert (E : (Qabs (x - x) == 0)%Q) by (rewrite (Qabs_wd (x - x) 0); [reflexivity|ring]).
  apply orb_true_iff. right. apply Qle_bool_iff. rewrite E. unfold tolerance. discriminate.
Qed.

Lemma isclose_close a b : isclose a b = true <-> close a b.
Proof.
  destruct a as [x| | |], b as [y| | |]; simpl; try (split; [discriminate|contradiction]); try tauto.
  rewrite !orb_true_iff, !Qle_bool_iff. unfold tolerance.
  assert (S : forall m, (Qabs (x - y) <= (1 # 1000000000) * m <-> Qabs (x - y) * 1000000000 <= m)%Q).
  { intros m. split; intros H; lra. }
  split.
  - intros [[H|H]|H].
    + exists (Qabs y). split; [right; right; reflexivity|]. apply S; auto.
    + exists (Qabs x). split; [right; left; reflexivity|]. apply S; auto.
    + exists 1%Q. split; [left; reflexivity|]. lra.
  - intros [m [[E|[E|E]] H]].
    + right. rewrite E in H. lra.
    + left; right. apply S. rewrite E in H. auto.
    + left; left. apply S. rewrite E in H. auto.
Qed.

(** ** Parts of values, keys, sums, strings *)
Lemma everywhere_here P v : everywhere P v -> P v.
Proof. intros H; inversion H; auto. Qed.
Lemma everywhere_seq P v l : everywhere P v -> seq_of v = Some l -> Forall (everywhere P) l.
Proof. intros H S; inversion H; subst; simpl in S; inversion S; subst; auto. Qed.
Lemma everywhere_dict P d k x : everywhere P (VDict d) -> In (k, x) d -> everywhere P x.
Proof.
  intros H I; inversion H; subst.
  match goal with K : Forall (fun kv => _ (snd kv)) _ |- _ => rewrite Forall_forall in K; exact (K (k, x) I)
  | K : Forall (fun kv => _ _ (snd kv)) _ |- _ => rewrite Forall_forall in K; exact (K (k, x) I) end.
Qed.
Lemma everywhere_obj P c d k x : everywhere P (VObj c d) -> In (k, x) d -> everywhere P x.
Proof.
  intros H I; inversion H; subst.
  match goal with K : Forall (fun kv => _ (snd kv)) _ |- _ => rewrite Forall_forall in K; exact (K (k, x) I)
  | K : Forall (fun kv => _ _ (snd kv)) _ |- _ => rewrite Forall_forall in K; exact (K (k, x) I) end.
Qed.
Lemma wf_seq v l : wf_val v -> seq_of v = Some l -> Forall wf_val l.
Proof. intros H S; inversion H; subst; simpl in S; inversion S; subst; auto. Qed.
Lemma wf_dict_in d k x : wf_val (VDict d) -> In (k, x) d -> wf_val x.
Proof.
  intros H I; inversion H; subst.
  match goal with K : Forall (fun kv => _ (snd kv)) _ |- _ => rewrite Forall_forall in K; exact (K (k, x) I)
  | K : Forall (fun kv => _ _ (snd kv)) _ |- _ => rewrite Forall_forall in K; exact (K (k, x) I) end.
Qed.
Lemma wf_obj_in c d k x : wf_val (VObj c d) -> In (k, x) d -> wf_val x.
Proof.
  intros H I; inversion H; subst.
  match goal with K : Forall (fun kv => _ (snd kv)) _ |- _ => rewrite Forall_forall in K; exact (K (k, x) I)
  | K : Forall (fun kv => _ _ (snd kv)) _ |- _ => rewrite Forall_forall in K; exact (K (k, x) I) end.
Qed.
Lemma wf_dict_nodup d : wf_val (VDict d) -> NoDup (map fst d).
Proof. intros H; inversion H; auto. Qed.
Lemma wf_obj_nodup c d : wf_val (VObj c d) -> NoDup (map fst d).
Proof. intros H; inversion H; auto. Qed.

Lemma key_in_iff k l : key_in k l = false <-> (forall s, In s l -> k <> KStr s).
Proof.
  unfold key_in. destruct (memb key_eqb k (map KStr l)) eqn:M.
  - apply (memb_In _ key_eqb_eq) in M. apply in_map_iff in M. destruct M as [s [<- I]].
    split; [discriminate|]. intros H. exfalso. exact (H s I eq_refl).
  - apply (memb_In_false _ key_eqb_eq) in M. split; auto. intros _ s I ->. apply M. apply in_map. auto.
Qed.

Lemma private_iff k : private k = false <-> (forall s, k <> KStr (String "_" s)).
Proof.
  destruct k as [s|z|n]; simpl; try (split; [discriminate|auto]; fail).
  - destruct s as [|c s]; [split; [discriminate|auto]|]. destruct (Ascii.eqb_spec c "_") as [->|D].
    + split; [discriminate|]. intros H. exfalso. exact (H s eq_refl).
    + split; auto. intros _ t E. inversion E. contradiction.
Qed.

Lemma lookup_filter {A} (p : key -> bool) (d : list (key * A)) k :
  lookup k (filter (fun kv => p (fst kv)) d) = if p k then lookup k d else None.
Proof.
  induction d as [|[j x] d IH]; simpl; [destruct (p k); auto|]. destruct (p j) eqn:Pj; simpl.
  - rewrite IH. destruct (key_eqb k j) eqn:E; auto. apply key_eqb_eq in E. subst. rewrite Pj. auto.
  - rewrite IH. destruct (key_eqb k j) eqn:E; auto. apply key_eqb_eq in E. subst. rewrite Pj. auto.
Qed.

Lemma Forall2_from_nth {A B} (P : A -> B -> Prop) l : forall m, length l = length m ->
  (forall i x y, nth_error l i = Some x -> nth_error m i = Some y -> P x y) -> Forall2 P l m.
Proof.
  induction l as [|a l IH]; intros [|b m] L H; simpl in *; try discriminate; constructor.
  - apply (H 0%nat); reflexivity.
  - apply IH; [lia|]. intros i x y A1 A2. apply (H (S i)); auto.
Qed.

Lemma oadd_comm a b : oadd a b = oadd b a.
Proof. destruct a, b; simpl; auto. f_equal. lia. Qed.
Lemma oadd_assoc a b c : oadd a (oadd b c) = oadd (oadd a b) c.
Proof. destruct a, b, c; simpl; auto. f_equal. lia. Qed.
Lemma oadd_0 a : oadd (Some 0%Z) a = a.
Proof. destruct a; reflexivity. Qed.
Lemma osum_perm l m : Permutation l m -> osum l = osum m.
Proof.
  intros H. induction H; simpl; auto.
  - congruence.
  - rewrite !oadd_assoc, (oadd_comm y x). auto.
  - congruence.
Qed.
Lemma osum_filter {A} (p : A -> bool) (h : A -> option Z) l :
  osum (map (fun x => if p x then h x else Some 0%Z) l) = osum (map h (filter p l)).
Proof.
  induction l as [|x l IH]; cbn [map osum fold_right filter]; auto. unfold osum in *. destruct (p x); cbn [map fold_right].
  - rewrite IH. auto.
  - rewrite IH. apply oadd_0.
Qed.

(** order on strings *)
Lemma ascii_compare_lt_trans a b c : Ascii.compare a b = Lt -> Ascii.compare b c = Lt -> Ascii.compare a c = Lt.
Proof. unfold Ascii.compare. rewrite !N.compare_lt_iff. apply N.lt_trans. Qed.
Lemma ascii_compare_eq a b : Ascii.compare a b = Eq -> a = b.
Proof.
  unfold Ascii.compare. rewrite N.compare_eq_iff. intros H. rewrite <- (ascii_N_embedding a), <- (ascii_N_embedding b). congruence.
Qed.
Lemma ascii_compare_refl a : Ascii.compare a a = Eq.
Proof. unfold Ascii.compare. apply N.compare_refl. Qed.
Lemma ascii_compare_antisym a b : Ascii.compare a b = CompOpp (Ascii.compare b a).
Proof. unfold Ascii.compare. apply N.compare_antisym. Qed.

Lemma string_compare_refl s : String.compare s s = Eq.
Proof. induction s; simpl; auto. rewrite ascii_compare_refl. auto. Qed.
Lemma string_compare_eq s : forall t, String.compare s t = Eq -> s = t.
Proof.
  induction s as [|a s IH]; intros [|b t]; simpl; try discriminate; auto.
  destruct (Ascii.compare a b) eqn:E; try discriminate. apply ascii_compare_eq in E. intros H. f_equal; auto.
Qed.
Lemma string_compare_antisym s : forall t, String.compare s t = CompOpp (String.compare t s).
Proof.
  induction s as [|a s IH]; intros [|b t]; simpl; auto. rewrite (ascii_compare_antisym a b).
  destruct (Ascii.compare b a); simpl; auto.
Qed.
Lemma string_compare_trans s : forall t u, String.compare s t = Lt -> String.compare t u = Lt -> String.compare s u = Lt.
Proof.
  induction s as [|a s IH]; intros [|b t] [|c u]; simpl; try discriminate; auto.
  destruct (Ascii.compare a b) eqn:E1; try discriminate; destruct (Ascii.compare b c) eqn:E2; try discriminate.
  - apply ascii_compare_eq in E1, E2. subst. rewrite ascii_compare_refl. apply IH.
  - apply ascii_compare_eq in E1. subst. rewrite E2. auto.
  - apply ascii_compare_eq in E2. subst. rewrite E1. auto.
  - rewrite (ascii_compare_lt_trans _ _ _ E1 E2). auto.
Qed.

(** ** Keys that count *)
Section C.
Variable non_serializable non_data_eq : string -> list string.
Notation eq_key := (eq_key non_serializable non_data_eq).
Notation counts := (counts non_serializable non_data_eq).
Notation data_eq := (data_eq non_serializable non_data_eq).
Notation data_eq_dict := (data_eq_dict non_serializable non_data_eq).
Notation agrees := (agrees non_serializable non_data_eq).

Lemma serializable_iff c k : serializable non_serializable c k = true <->
  (forall s, k <> KStr (String "_" s)) /\ (forall s, In s (non_serializable c) -> k <> KStr s).
Proof.
  unfold serializable. rewrite andb_true_iff, !negb_true_iff, private_iff, key_in_iff. tauto.
Qed.

Lemma eq_key_iff c k : eq_key c k = true <-> counts c k.
Proof.
  unfold DataModel.eq_key, DataSpec.counts. rewrite andb_true_iff, negb_true_iff, serializable_iff, key_in_iff.
  split.
  - intros [[H1 H2] H3]. repeat split; auto.
    + intros s I. apply H3. apply in_or_app; auto.
    + apply H3. apply in_or_app. simpl. auto.
    + apply H3. apply in_or_app. simpl. auto.
  - intros [H1 [H2 [H3 [H4 H5]]]]. repeat split; auto. intros s I. apply in_app_or in I. destruct I as [I|[<-|[<-|[]]]]; auto.
Qed.

(** ** Data equality, one level *)
Lemma data_eq_dict_iff d e : data_eq (VDict d) (VDict e) = true <->
  (forall k x, In (k, x) d -> exists y, lookup k e = Some y /\ data_eq x y = true).
Proof.
  simpl. rewrite forallb_forall. split.
  - intros H k x I. specialize (H (k, x) I). simpl in H. destruct (lookup k e) as [y|]; [|discriminate]. eauto.
  - intros H [k x] I. simpl. destruct (H k x I) as [y [-> E]]. auto.
Qed.

Lemma data_eq_obj_iff c d c' e : data_eq (VObj c d) (VObj c' e) = true <->
  c = c' /\ (forall k x, In (k, x) d -> counts c k -> exists y, lookup k e = Some y /\ data_eq x y = true).
Proof.
  cbn [DataModel.data_eq]. rewrite andb_true_iff, String.eqb_eq, forallb_forall. split.
  - intros [-> H]. split; auto. intros k x I C. specialize (H (k, x) I). cbn [fst snd] in H.
    apply eq_key_iff in C. rewrite C in H. unfold DataModel.data_eq_dict in H. rewrite lookup_filter, C in H.
    destruct (lookup k e) as [y|]; [|discriminate]. eauto.
  - intros [-> H]. split; auto. intros [k x] I. cbn [fst snd]. destruct (eq_key c' k) eqn:C; auto.
    unfold DataModel.data_eq_dict. rewrite lookup_filter, C. apply eq_key_iff in C.
    destruct (H k x I C) as [y [-> E]]. auto.
Qed.

Lemma data_eq_seq_iff v w l : seq_of v = Some l ->
  (data_eq v w = true <-> exists m, seq_of w = Some m /\ Forall2 (fun x y => data_eq x y = true) l m).
Proof.
  intros S.
  assert (H : data_eq v w = match seq_of w with
       | Some m => Nat.eqb (length l) (length m) && forallb2 data_eq l m | None => false end).
  { destruct v; simpl in S; inversion S; subst; reflexivity. }
  rewrite H. destruct (seq_of w) as [m|]; [|split; [discriminate|intros [m [E _]]; discriminate]].
  rewrite andb_true_iff, Nat.eqb_eq. split.
  - intros [L F]. exists m. split; auto. apply forallb2_Forall2; auto.
  - intros [m' [E F]]. inversion E; subst m'. assert (L := Forall2_length _ _ _ F). split; auto. apply forallb2_Forall2; auto.
Qed.

(** ** Meaning *)
Lemma agrees_seq_inv v w l : seq_of v = Some l -> agrees v w -> exists m, seq_of w = Some m /\ Forall2 agrees l m.
Proof.
  intros S H. inversion H; subst; simpl in S; try discriminate.
  - destruct v; simpl in *; discriminate.
  - rewrite S in H0. inversion H0; subst. eauto.
Qed.

Lemma data_eq_agrees v : forall w, wf_val v -> wf_val w -> (data_eq v w = true <-> agrees v w).
Proof.
  assert (SEQ : forall v l, seq_of v = Some l ->
     Forall (fun x => forall w, wf_val x -> wf_val w -> (data_eq x w = true <-> agrees x w)) l ->
     forall w, wf_val v -> wf_val w -> (data_eq v w = true <-> agrees v w)).
  { intros v0 l S F w Wv Ww. rewrite (data_eq_seq_iff v0 w l S). rewrite Forall_forall in F.
    pose proof (wf_seq v0 l Wv S) as Wl. rewrite Forall_forall in Wl. split.
    - intros [m [Sm Fm]]. apply ag_seq with l m; auto. pose proof (wf_seq w m Ww Sm) as Wm. rewrite Forall_forall in Wm.
      eapply Forall2_impl_in; [exact Fm|]. simpl. intros x y Ix Iy. apply F; auto.
    - intros A. destruct (agrees_seq_inv v0 w l S A) as [m [Sm Fm]]. exists m. split; auto.
      pose proof (wf_seq w m Ww Sm) as Wm. rewrite Forall_forall in Wm.
      eapply Forall2_impl_in; [exact Fm|]. simpl. intros x y Ix Iy. apply F; auto. }
  induction v using val_ind'; intros w Wv Ww.
  - destruct w; simpl; split; intros H; try discriminate; try constructor; inversion H; subst; simpl in *; try discriminate; auto.
  - split.
    + destruct w; simpl; intros H; try discriminate.
      * apply eqb_prop in H. subst. apply ag_number with (Z.b2z b0); auto.
      * apply Z.eqb_eq in H. subst. apply ag_number with (Z.b2z b); auto.
    + intros H. inversion H; subst; simpl in *; try discriminate. inversion H0; subst.
      destruct w; simpl in *; try discriminate; inversion H1.
      * destruct b, b0; simpl in *; auto; discriminate.
      * apply Z.eqb_refl.
  - split.
    + destruct w; simpl; intros H; try discriminate.
      * apply Z.eqb_eq in H. subst. apply ag_number with (Z.b2z b); auto.
      * apply Z.eqb_eq in H. subst. apply ag_number with z0; auto.
    + intros H. inversion H; subst; simpl in *; try discriminate. inversion H0; subst.
      destruct w; simpl in *; try discriminate; inversion H1; apply Z.eqb_refl.
  - split.
    + destruct w; simpl; intros H; try discriminate. apply ag_float. apply isclose_close. auto.
    + intros H. inversion H; subst; simpl in *; try discriminate. apply isclose_close. auto.
  - split.
    + destruct w; simpl; intros H; try discriminate. apply String.eqb_eq in H. subst. constructor.
    + intros H. inversion H; subst; simpl in *; try discriminate. apply String.eqb_refl.
  - apply SEQ with l; auto.
  - apply SEQ with l; auto.
  - rewrite Forall_forall in H. split.
    + destruct w; try (simpl; intros Q; discriminate). intros Q. rewrite data_eq_dict_iff in Q. constructor.
      intros k x I. destruct (Q k x I) as [y [L E]]. exists y. apply lookup_In in L. split; auto.
      apply (H (k, x) I); eauto using wf_dict_in.
    + intros Q. inversion Q; subst; try discriminate.
      rewrite data_eq_dict_iff. intros k x I. destruct (H1 k x I) as [y [J A]]. exists y. split.
      * apply lookup_nodup; auto. apply wf_dict_nodup; auto.
      * apply (H (k, x) I); eauto using wf_dict_in.
  - rewrite Forall_forall in H. split.
    + destruct w; try (simpl; intros Q; discriminate). intros Q. rewrite data_eq_obj_iff in Q. destruct Q as [-> Q]. constructor.
      intros k x I C. destruct (Q k x I C) as [y [L E]]. exists y. apply lookup_In in L. split; auto.
      apply (H (k, x) I); eauto using wf_obj_in.
    + intros Q. inversion Q; subst; try discriminate.
      rewrite data_eq_obj_iff. split; auto. intros k x I C. destruct (H3 k x I C) as [y [J A]]. exists y. split.
      * apply lookup_nodup; auto. eapply wf_obj_nodup; eauto.
      * apply (H (k, x) I); eauto using wf_obj_in.
  - split.
    + destruct w; simpl; intros Q; try discriminate. constructor.
    + intros Q. inversion Q; subst; simpl in *; try discriminate. auto.
Qed.

(** ** Laws *)
Lemma data_eq_refl v : wf_val v -> nan_free v -> data_eq v v = true.
Proof.
  unfold nan_free. induction v using val_ind'; intros W N; auto.
  - simpl. apply eqb_reflx.
  - simpl. apply Z.eqb_refl.
  - simpl. apply isclose_refl. apply everywhere_here in N. intros ->. apply N. reflexivity.
  - simpl. apply String.eqb_refl.
  - rewrite (data_eq_seq_iff (VList l) (VList l) l eq_refl). exists l. split; auto.
    pose proof (wf_seq _ _ W eq_refl) as Wl. pose proof (everywhere_seq _ _ _ N eq_refl) as Nl.
    clear - H Wl Nl. induction H; constructor; inversion Wl; inversion Nl; subst; auto.
  - rewrite (data_eq_seq_iff (VTuple l) (VTuple l) l eq_refl). exists l. split; auto.
    pose proof (wf_seq _ _ W eq_refl) as Wl. pose proof (everywhere_seq _ _ _ N eq_refl) as Nl.
    clear - H Wl Nl. induction H; constructor; inversion Wl; inversion Nl; subst; auto.
  - rewrite data_eq_dict_iff. intros k x I. exists x. rewrite Forall_forall in H. split.
    + apply lookup_nodup; auto. apply wf_dict_nodup; auto.
    + apply (H (k, x) I); eauto using wf_dict_in, everywhere_dict.
  - rewrite data_eq_obj_iff. split; auto. intros k x I _. exists x. rewrite Forall_forall in H. split.
    + apply lookup_nodup; auto. eapply wf_obj_nodup; eauto.
    + apply (H (k, x) I); eauto using wf_obj_in, everywhere_obj.
Qed.

Lemma data_eq_trans a : float_free a -> forall b c, data_eq a b = true -> data_eq b c = true -> data_eq a c = true.
Proof.
  unfold float_free.
  assert (SEQ : forall v l, seq_of v = Some l ->
    Forall (fun a => everywhere not_float a -> forall b c, data_eq a b = true -> data_eq b c = true -> data_eq a c = true) l ->
    everywhere not_float v -> forall b c, data_eq v b = true -> data_eq b c = true -> data_eq v c = true).
  { intros v l S F E b c H1 H2. rewrite (data_eq_seq_iff v b l S) in H1. destruct H1 as [m [Sb F1]].
    rewrite (data_eq_seq_iff b c m Sb) in H2. destruct H2 as [n [Sc F2]].
    rewrite (data_eq_seq_iff v c l S). exists n. split; auto. pose proof (everywhere_seq _ _ _ E S) as El.
    clear - F El F1 F2. revert n F2. induction F1; intros n F2; inversion F2; subst; constructor.
    - inversion F; inversion El; subst. eauto.
    - inversion F; inversion El; subst. eauto. }
  induction a using val_ind'; intros E v w H1 H2.
  - destruct v; simpl in *; try discriminate; auto.
  - destruct v, w; simpl in *; try discriminate; auto.
    + apply eqb_prop in H1, H2. subst. apply eqb_reflx.
    + apply eqb_prop in H1. subst. auto.
    + apply Z.eqb_eq in H1, H2. subst. destruct b, b0; simpl in *; auto; discriminate.
    + apply Z.eqb_eq in H1, H2. subst. apply Z.eqb_refl.
  - destruct v, w; simpl in *; try discriminate; auto.
    + apply eqb_prop in H2. subst. auto.
    + apply Z.eqb_eq in H1, H2. subst. apply Z.eqb_refl.
    + apply Z.eqb_eq in H1, H2. subst. apply Z.eqb_refl.
    + apply Z.eqb_eq in H1, H2. subst. apply Z.eqb_refl.
  - exfalso. apply everywhere_here in E. exact (E f eq_refl).
  - destruct v; simpl in H1; try discriminate. apply String.eqb_eq in H1. subst. auto.
  - apply SEQ with l v; auto.
  - apply SEQ with l v; auto.
  - destruct v; try (simpl in H1; discriminate). destruct w; try (simpl in H2; discriminate).
    rewrite data_eq_dict_iff in *. rewrite Forall_forall in H. intros k x I.
    destruct (H1 k x I) as [y [L1 E1]]. destruct (H2 k y (lookup_In _ _ _ L1)) as [z [L2 E2]].
    exists z. split; auto. apply (H (k, x) I) with y; eauto using everywhere_dict.
  - destruct v; try (simpl in H1; discriminate). destruct w; try (simpl in H2; discriminate).
    rewrite data_eq_obj_iff in *. rewrite Forall_forall in H. destruct H1 as [-> H1], H2 as [-> H2]. split; auto. intros k x I C.
    destruct (H1 k x I C) as [y [L1 E1]]. destruct (H2 k y (lookup_In _ _ _ L1) C) as [z [L2 E2]].
    exists z. split; auto. apply (H (k, x) I) with y; eauto using everywhere_obj.
  - destruct v; simpl in *; try discriminate. destruct w; simpl in *; try discriminate. auto.
Qed.

Lemma same_sizes_seq v w l : same_sizes non_serializable non_data_eq v w -> seq_of v = Some l -> forall m, seq_of w = Some m ->
  forall i x y, nth_error l i = Some x -> nth_error m i = Some y -> same_sizes non_serializable non_data_eq x y.
Proof.
  intros H S m Sm. inversion H; subst; simpl in *; try discriminate; try congruence.
  rewrite S in H0. rewrite Sm in H1. inversion H0; inversion H1; subst. auto.
Qed.

Lemma data_eq_sym v : forall w, wf_val v -> wf_val w -> same_sizes non_serializable non_data_eq v w ->
  data_eq v w = true -> data_eq w v = true.
Proof.
  assert (SEQ : forall v l, seq_of v = Some l ->
    Forall (fun a => forall w, wf_val a -> wf_val w -> same_sizes non_serializable non_data_eq a w -> data_eq a w = true -> data_eq w a = true) l ->
    forall w, wf_val v -> wf_val w -> same_sizes non_serializable non_data_eq v w -> data_eq v w = true -> data_eq w v = true).
  { intros v0 l S F w Wv Ww SS E. rewrite (data_eq_seq_iff v0 w l S) in E. destruct E as [m [Sm Fm]].
    rewrite (data_eq_seq_iff w v0 m Sm). exists l. split; auto. apply Forall2_flip'.
    pose proof (same_sizes_seq v0 w l SS S m Sm) as K.
    pose proof (wf_seq _ _ Wv S) as Wl. pose proof (wf_seq _ _ Ww Sm) as Wm. rewrite Forall_forall in F, Wl, Wm.
    apply Forall2_from_nth; [exact (Forall2_length _ _ _ Fm)|]. intros i x y N1 N2.
    apply (F x (nth_error_In _ _ N1)); eauto using nth_error_In.
    exact (Forall2_nth _ _ _ Fm i x y N1 N2). }
  induction v using val_ind'; intros w Wv Ww SS E.
  - destruct w; simpl in *; try discriminate; auto.
  - destruct w; simpl in *; try discriminate; auto.
    + apply eqb_prop in E. subst. apply eqb_reflx.
    + rewrite Z.eqb_sym. auto.
  - destruct w; simpl in *; try discriminate; rewrite Z.eqb_sym; auto.
  - destruct w; simpl in *; try discriminate. rewrite isclose_sym. auto.
  - destruct w; simpl in *; try discriminate. rewrite String.eqb_sym. auto.
  - apply SEQ with l; auto.
  - apply SEQ with l; auto.
  - destruct w as [| | | | | | |e| |]; try (simpl in E; discriminate). rewrite data_eq_dict_iff in *.
    inversion SS; subst; simpl in *; try discriminate; [|exfalso; eapply H1; eauto].
    rewrite Forall_forall in H. assert (ND := wf_dict_nodup _ Wv). assert (NE := wf_dict_nodup _ Ww).
    assert (INC : incl (map fst e) (map fst d)).
    { apply NoDup_length_incl; auto; [rewrite !map_length; lia|]. intros k I. apply key_in_item in I. destruct I as [x I].
      destruct (E k x I) as [y [L _]]. apply lookup_In in L. eapply in_key; eauto. }
    intros k y J. assert (I := INC k (in_key _ _ _ J)). apply key_in_item in I. destruct I as [x I].
    exists x. split; [apply lookup_nodup; auto|]. destruct (E k x I) as [y' [L' E']].
    apply (lookup_nodup _ _ _ NE) in J as L. assert (y' = y) by congruence. subst y'.
    apply (H (k, x) I); eauto using wf_dict_in.
  - destruct w as [| | | | | | | |c' e|]; try (simpl in E; discriminate). rewrite data_eq_obj_iff in *. destruct E as [-> E]. split; auto.
    inversion SS as [| |? ? ? KK KS|? ? ? ? N3]; subst; simpl in *; try discriminate; [|exfalso; eapply N3; eauto].
    rewrite Forall_forall in H. assert (ND := wf_obj_nodup _ _ Wv). assert (NE := wf_obj_nodup _ _ Ww).
    intros k y J C. assert (I := proj2 (KK k C) (in_key _ _ _ J)). apply key_in_item in I. destruct I as [x I].
    exists x. split; [apply lookup_nodup; auto|]. destruct (E k x I C) as [y' [L' E']].
    apply (lookup_nodup _ _ _ NE) in J as L. assert (y' = y) by congruence. subst y'.
    apply (H (k, x) I); eauto using wf_obj_in.
  - destruct w; simpl in *; try discriminate. auto.
Qed.

(** ** Hash *)
Variable non_data_hash : string -> list string.
Notation hashed_key := (hashed_key non_serializable non_data_eq non_data_hash).
Notation counts_in_hash := (counts_in_hash non_serializable non_data_eq non_data_hash).
Lemma hashed_key_iff c k : hashed_key c k = true <-> counts_in_hash c k.
Proof.
  unfold DataModel.hashed_key, DataSpec.counts_in_hash, DataSpec.counts.
  rewrite andb_true_iff, negb_true_iff, serializable_iff, key_in_iff.
  split.
  - intros [[H1 H2] H3]. repeat split; auto.
    + intros s I. apply H3. rewrite !in_app_iff. auto.
    + apply H3. rewrite !in_app_iff. simpl. auto.
    + apply H3. rewrite !in_app_iff. simpl. auto.
    + intros s I. apply H3. rewrite !in_app_iff. auto.
  - intros [[H1 [H2 [H3 [H4 H5]]]] H6]. repeat split; auto. intros s I. rewrite !in_app_iff in I.
    destruct I as [I|[I|[<-|[<-|[]]]]]; auto.
Qed.

Variable hash_none : Z.
Variable hash_int : Z -> Z.
Variable hash_float : pyfloat -> Z.
Variable hash_class : string -> Z.
Variable hash_key : key -> Z.
Variable float_of : Z -> option Z.
Notation choose_hash := (choose_hash non_serializable non_data_eq non_data_hash hash_none hash_int hash_float hash_class hash_key float_of).
Notation dict_hash := (dict_hash hash_key).

Definition same_kind (a b : key) : Prop :=
  match a, b with KStr _, KStr _ => True | KInt _, KInt _ => True | _, _ => False end.

Lemma key_leb_total a b : key_leb a b = false -> key_leb b a = true.
Proof.
  destruct a as [s|z|n], b as [t|y|m]; simpl; auto; intros H; try discriminate.
  - unfold String.leb in *. rewrite string_compare_antisym. destruct (String.compare s t); simpl in *; auto; discriminate.
  - lia.
Qed.
Lemma key_leb_refl a : key_leb a a = true.
Proof.
  destruct a; simpl; auto; [|lia]. unfold String.leb. rewrite string_compare_refl. auto.
Qed.
Lemma key_leb_antisym a b : same_kind a b -> key_leb a b = true -> key_leb b a = true -> a = b.
Proof.
  destruct a as [s|z|n], b as [t|y|m]; simpl; try contradiction; intros _ H1 H2.
  - unfold String.leb in *. rewrite string_compare_antisym in H2. destruct (String.compare s t) eqn:E; simpl in *; try discriminate.
    apply string_compare_eq in E. congruence.
  - f_equal. lia.
Qed.
Lemma key_leb_trans a b c : same_kind a b -> same_kind b c -> key_leb a b = true -> key_leb b c = true -> key_leb a c = true.
Proof.
  destruct a as [s|z|n], b as [t|y|m], c as [u|x|o]; simpl; try contradiction; intros _ _ H1 H2.
  - unfold String.leb in *. destruct (String.compare s t) eqn:E1; try discriminate; destruct (String.compare t u) eqn:E2; try discriminate.
    + apply string_compare_eq in E1. subst. rewrite E2. auto.
    + apply string_compare_eq in E1. subst. rewrite E2. auto.
    + apply string_compare_eq in E2. subst. rewrite E1. auto.
    + rewrite (string_compare_trans _ _ _ E1 E2). auto.
  - lia.
Qed.

Section Extremum.
Context {A : Type}.
Definition one_kind (d : list (key * A)) : Prop := forall x y, In x d -> In y d -> same_kind (fst x) (fst y).

Lemma least_spec d : forall x, one_kind (x :: d) ->
  In (least x d) (x :: d) /\ forall y, In y (x :: d) -> key_leb (fst (least x d)) (fst y) = true.
Proof.
  induction d as [|z d IH]; intros x K.
  - simpl. split; auto. intros y [<-|[]]. apply key_leb_refl.
  - cbn [least fold_left]. fold (@least A).
    set (m := if key_leb (fst x) (fst z) then x else z).
    assert (Im : In m (x :: z :: d)) by (unfold m; destruct (key_leb (fst x) (fst z)); simpl; auto).
    assert (Km : one_kind (m :: d)).
    { intros a b Ia Ib. apply K.
      - destruct Ia as [<-|Ia]; simpl in *; tauto.
      - destruct Ib as [<-|Ib]; simpl in *; tauto. }
    destruct (IH m Km) as [I L]. fold (least m d) in *. split.
    + destruct I as [I|I]; [rewrite <- I; auto|simpl; auto].
    + assert (Lm : key_leb (fst (least m d)) (fst m) = true) by (apply L; simpl; auto).
      assert (T : forall y, In y [x; z] -> key_leb (fst m) (fst y) = true).
      { intros y [<-|[<-|[]]]; unfold m; destruct (key_leb (fst x) (fst z)) eqn:E; auto using key_leb_refl, key_leb_total. }
      assert (Il : In (least m d) (x :: z :: d)) by (destruct I as [I|I]; [rewrite <- I; auto|simpl; auto]).
      intros y [<-|[<-|Iy]]; [| |apply L; simpl; auto].
      * apply key_leb_trans with (fst m); auto; try (apply K; simpl; auto); apply T; simpl; auto.
      * apply key_leb_trans with (fst m); auto; try (apply K; simpl; auto); apply T; simpl; auto.
Qed.

Lemma greatest_spec d : forall x, one_kind (x :: d) ->
  In (greatest x d) (x :: d) /\ forall y, In y (x :: d) -> key_leb (fst y) (fst (greatest x d)) = true.
Proof.
  induction d as [|z d IH]; intros x K.
  - simpl. split; auto. intros y [<-|[]]. apply key_leb_refl.
  - cbn [greatest fold_left]. fold (@greatest A).
    set (m := if key_leb (fst z) (fst x) then x else z).
    assert (Im : In m (x :: z :: d)) by (unfold m; destruct (key_leb (fst z) (fst x)); simpl; auto).
    assert (Km : one_kind (m :: d)).
    { intros a b Ia Ib. apply K.
      - destruct Ia as [<-|Ia]; simpl in *; tauto.
      - destruct Ib as [<-|Ib]; simpl in *; tauto. }
    destruct (IH m Km) as [I L]. fold (greatest m d) in *. split.
    + destruct I as [I|I]; [rewrite <- I; auto|simpl; auto].
    + assert (Lm : key_leb (fst m) (fst (greatest m d)) = true) by (apply L; simpl; auto).
      assert (T : forall y, In y [x; z] -> key_leb (fst y) (fst m) = true).
      { intros y [<-|[<-|[]]]; unfold m; destruct (key_leb (fst z) (fst x)) eqn:E; auto using key_leb_refl, key_leb_total. }
      assert (Il : In (greatest m d) (x :: z :: d)) by (destruct I as [I|I]; [rewrite <- I; auto|simpl; auto]).
      intros y [<-|[<-|Iy]]; [| |apply L; simpl; auto].
      * apply key_leb_trans with (fst m); auto; try (apply K; simpl; auto); apply T; simpl; auto.
      * apply key_leb_trans with (fst m); auto; try (apply K; simpl; auto); apply T; simpl; auto.
Qed.

Lemma orderable_one_kind (x y : key * A) d : orderable (x :: y :: d) = true -> one_kind (x :: y :: d).
Proof.
  intros H. unfold orderable in H. apply orb_true_iff in H. rewrite !forallb_forall in H.
  intros a b Ia Ib. destruct H as [H|H]; assert (Ha := H a Ia); assert (Hb := H b Ib);
    destruct (fst a), (fst b); simpl; auto; discriminate.
Qed.
Lemma orderable_perm (d e : list (key * A)) : Permutation d e -> orderable d = orderable e.
Proof.
  intros P. assert (F : forall p : key * A -> bool, forallb p d = forallb p e).
  { intros p. destruct (forallb p e) eqn:E.
    - rewrite forallb_forall in *. intros x I. apply E. eapply Permutation_in; eauto.
    - destruct (forallb p d) eqn:E'; auto. rewrite forallb_forall in E'.
      assert (forallb p e = true); [|congruence]. apply forallb_forall. intros x I. apply E'.
      eapply Permutation_in; [apply Permutation_sym; eauto|auto]. }
  unfold orderable. rewrite !F. pose proof (Permutation_length P) as L.
  destruct d as [|x [|y d]], e as [|x' [|y' e]]; simpl in L; try lia; auto.
Qed.
End Extremum.

Lemma dict_hash_perm d e : NoDup (map fst d) -> Permutation d e -> dict_hash d = dict_hash e.
Proof.
  intros ND P. assert (NE : NoDup (map fst e)).
  { eapply Permutation_NoDup; [apply Permutation_map; eauto|auto]. }
  pose proof (Permutation_length P) as L. pose proof (orderable_perm d e P) as O.
  destruct d as [|x d], e as [|x' e]; simpl in L; try lia; auto.
  unfold DataModel.dict_hash. rewrite <- O. destruct (orderable (x :: d)) eqn:Od.
  - destruct d as [|y d], e as [|y' e]; simpl in L; try lia.
    + apply Permutation_length_1 in P. subst. reflexivity.
    + assert (K := orderable_one_kind _ _ _ Od). assert (K' := orderable_one_kind _ _ _ (eq_sym O)).
      destruct (least_spec _ _ K) as [I1 L1]. destruct (least_spec _ _ K') as [I2 L2].
      destruct (greatest_spec _ _ K) as [I3 L3]. destruct (greatest_spec _ _ K') as [I4 L4].
      assert (E : least x (y :: d) = least x' (y' :: e)).
      { assert (J1 := Permutation_in _ P I1). assert (J2 := Permutation_in _ (Permutation_sym P) I2).
        assert (Q : fst (least x (y :: d)) = fst (least x' (y' :: e))) by (apply key_leb_antisym; auto).
        destruct (least x (y :: d)) as [k a], (least x' (y' :: e)) as [k' a']. simpl in Q. subst k'.
        f_equal. exact (nodup_value _ _ _ _ NE J1 I2). }
      assert (E' : greatest x (y :: d) = greatest x' (y' :: e)).
      { assert (J1 := Permutation_in _ P I3). assert (J2 := Permutation_in _ (Permutation_sym P) I4).
        assert (Q : fst (greatest x (y :: d)) = fst (greatest x' (y' :: e))) by (apply key_leb_antisym; auto).
        destruct (greatest x (y :: d)) as [k a], (greatest x' (y' :: e)) as [k' a']. simpl in Q. subst k'.
        f_equal. exact (nodup_value _ _ _ _ NE J1 I4). }
      rewrite E, E'. simpl length. rewrite L. reflexivity.
  - apply osum_perm. apply Permutation_map. auto.
Qed.

Lemma items_perm {A} (d e : list (key * A)) : NoDup (map fst d) -> NoDup (map fst e) ->
  (forall k x, In (k, x) d -> In (k, x) e) -> (forall k, In k (map fst e) -> In k (map fst d)) -> Permutation d e.
Proof.
  intros ND NE H1 H2. apply NoDup_Permutation; auto using nodup_items. intros [k x]. split; auto.
  intros I. destruct (key_in_item d k (H2 k (in_key _ _ _ I))) as [y J]. assert (x = y); [|subst; auto].
  exact (nodup_value _ _ _ _ NE I (H1 k y J)).
Qed.

Notation same_content := (same_content non_serializable non_data_eq non_data_hash).

Lemma same_content_seq v w l : same_content v w -> seq_of v = Some l ->
  v = w \/ exists m, seq_of w = Some m /\ Forall2 same_content l m.
Proof.
  intros H S. inversion H; subst; simpl in S; try discriminate; auto.
  - destruct v; simpl in *; discriminate.
  - right. rewrite S in H0. inversion H0; subst. eauto.
Qed.

Lemma last_of_Forall2 {A B} (P : A -> B -> Prop) l m : Forall2 P l m -> forall x y, P x y -> P (last_of x l) (last_of y m).
Proof. intros H. induction H; simpl; auto. Qed.

Lemma choose_hash_seq v l : seq_of v = Some l -> choose_hash v = sequence_hash (map choose_hash l).
Proof. intros S. destruct v; simpl in S; inversion S; reflexivity. Qed.

Lemma choose_hash_number v z : number v = Some z -> choose_hash v = Some (hash_int z).
Proof. intros H. destruct v; simpl in H; inversion H; reflexivity. Qed.

Lemma mapped_item {A B} (g : A -> B) (d : list (key * A)) k y :
  In (k, y) (map (fun kv => (fst kv, g (snd kv))) d) -> exists x, In (k, x) d /\ y = g x.
Proof. intros I. apply in_map_iff in I. destruct I as [[j x] [E I]]. simpl in E. inversion E; subst. eauto. Qed.

Lemma hash_same_content v : forall w, wf_val v -> wf_val w -> same_content v w -> choose_hash v = choose_hash w.
Proof.
  assert (SEQ : forall v l, seq_of v = Some l ->
    Forall (fun a => forall w, wf_val a -> wf_val w -> same_content a w -> choose_hash a = choose_hash w) l ->
    forall w, wf_val v -> wf_val w -> same_content v w -> choose_hash v = choose_hash w).
  { intros v0 l S F w Wv Ww SC. destruct (same_content_seq v0 w l SC S) as [->|[m [Sm Fm]]]; auto.
    rewrite (choose_hash_seq _ _ S), (choose_hash_seq _ _ Sm). f_equal.
    pose proof (wf_seq _ _ Wv S) as Wl. pose proof (wf_seq _ _ Ww Sm) as Wm.
    clear - F Wl Wm Fm. induction Fm; simpl; auto. inversion F; inversion Wl; inversion Wm; subst. f_equal; auto. }
  induction v using val_ind'; intros w Wv Ww SC.
  - inversion SC; subst; simpl in *; auto; discriminate.
  - inversion SC; subst; auto; simpl in *; try discriminate. rewrite (choose_hash_number w z); auto. congruence.
  - inversion SC; subst; auto; simpl in *; try discriminate. rewrite (choose_hash_number w z0); auto. congruence.
  - inversion SC; subst; auto; simpl in *; discriminate.
  - inversion SC; subst; auto; simpl in *; discriminate.
  - apply SEQ with l; auto.
  - apply SEQ with l; auto.
  - rewrite Forall_forall in H. inversion SC; subst; auto; simpl in *; try discriminate. apply dict_hash_perm.
    + rewrite map_map. simpl. apply wf_dict_nodup. auto.
    + apply items_perm.
      * rewrite map_map. simpl. apply wf_dict_nodup; auto.
      * rewrite map_map. simpl. apply wf_dict_nodup; auto.
      * intros k h I. apply mapped_item in I. destruct I as [x [I ->]]. destruct (H1 k x I) as [y [J Q]].
        apply in_map_iff. exists (k, y). split; auto. simpl. f_equal. symmetry. apply (H (k, x) I); eauto using wf_dict_in.
      * rewrite !map_map. simpl. auto.
  - rewrite Forall_forall in H. inversion SC as [| | | |? ? ? K1 K2]; subst; auto; try discriminate. cbn [DataModel.choose_hash]. unfold data_hash.
    assert (E : osum (map (fun kv => if hashed_key c (fst kv) then choose_hash (snd kv) else Some 0%Z) d)
              = osum (map (fun kv => if hashed_key c (fst kv) then choose_hash (snd kv) else Some 0%Z) e)).
    { rewrite (osum_filter (fun kv => hashed_key c (fst kv)) (fun kv => choose_hash (snd kv)) d).
      rewrite (osum_filter (fun kv => hashed_key c (fst kv)) (fun kv => choose_hash (snd kv)) e).
      set (d' := filter (fun kv => hashed_key c (fst kv)) d). set (e' := filter (fun kv => hashed_key c (fst kv)) e).
      assert (R : forall l : list (key * val), map (fun kv => choose_hash (snd kv)) l
                = map snd (map (fun kv => (fst kv, choose_hash (snd kv))) l)).
      { intros l. rewrite map_map. reflexivity. }
      rewrite !R. apply osum_perm. apply Permutation_map. apply items_perm.
      - rewrite map_map. simpl. apply filter_nodup. eapply wf_obj_nodup; eauto.
      - rewrite map_map. simpl. apply filter_nodup. eapply wf_obj_nodup; eauto.
      - intros k h I. apply mapped_item in I. destruct I as [x [I ->]]. apply filter_In in I. destruct I as [I C].
        simpl in C. assert (C' := C). apply hashed_key_iff in C'. destruct (K1 k x I C') as [y [J Q]].
        apply in_map_iff. exists (k, y). split; [simpl; f_equal; symmetry; apply (H (k, x) I); eauto using wf_obj_in|].
        apply filter_In. auto.
      - rewrite !map_map. simpl. intros k I. apply in_map_iff in I. destruct I as [[j y] [<- I]]. apply filter_In in I.
        destruct I as [I C]. simpl in *. assert (C' := C). apply hashed_key_iff in C'.
        assert (J := K2 j (in_key _ _ _ I) C'). apply key_in_item in J. destruct J as [x J].
        apply in_map_iff. exists (j, x). split; auto. apply filter_In. auto. }
    rewrite E. reflexivity.
  - inversion SC; subst; auto; simpl in *; discriminate.
Qed.

(** Equality in both directions is sameness of content. *)
Lemma both_ways_same_content v : forall w, wf_val v -> wf_val w -> float_free v -> class_free v ->
  data_eq v w = true -> data_eq w v = true -> same_content v w.
Proof.
  unfold float_free, class_free.
  assert (SEQ : forall v l, seq_of v = Some l ->
    Forall (fun a => forall w, wf_val a -> wf_val w -> everywhere not_float a -> everywhere not_class a ->
       data_eq a w = true -> data_eq w a = true -> same_content a w) l ->
    forall w, wf_val v -> wf_val w -> everywhere not_float v -> everywhere not_class v ->
       data_eq v w = true -> data_eq w v = true -> same_content v w).
  { intros v0 l S F w Wv Ww Fv Cv E1 E2. rewrite (data_eq_seq_iff v0 w l S) in E1. destruct E1 as [m [Sm F1]].
    rewrite (data_eq_seq_iff w v0 m Sm) in E2. destruct E2 as [l' [Sl F2]]. assert (l' = l) by congruence. subst l'.
    apply sc_seq with l m; auto. apply Forall2_from_nth; [exact (Forall2_length _ _ _ F1)|]. intros i x y N1 N2.
    rewrite Forall_forall in F. pose proof (wf_seq _ _ Wv S) as Wl. pose proof (wf_seq _ _ Ww Sm) as Wm.
    pose proof (everywhere_seq _ _ _ Fv S) as Fl. pose proof (everywhere_seq _ _ _ Cv S) as Cl.
    rewrite Forall_forall in Wl, Wm, Fl, Cl.
    apply (F x (nth_error_In _ _ N1)); eauto using nth_error_In.
    - exact (Forall2_nth _ _ _ F1 i x y N1 N2).
    - exact (Forall2_nth _ _ _ F2 i y x N2 N1). }
  induction v using val_ind'; intros w Wv Ww Fv Cv E1 E2.
  - destruct w; simpl in *; try discriminate. apply sc_same.
  - destruct w; simpl in *; try discriminate.
    + apply eqb_prop in E1. subst. apply sc_same.
    + apply Z.eqb_eq in E1. subst. apply sc_number with (Z.b2z b); auto.
  - destruct w; simpl in *; try discriminate.
    + apply Z.eqb_eq in E1. subst. apply sc_number with (Z.b2z b); auto.
    + apply Z.eqb_eq in E1. subst. apply sc_same.
  - exfalso. apply everywhere_here in Fv. exact (Fv f eq_refl).
  - destruct w; simpl in *; try discriminate. apply String.eqb_eq in E1. subst. apply sc_same.
  - apply SEQ with l; auto.
  - apply SEQ with l; auto.
  - destruct w as [| | | | | | |e| |]; try (simpl in E1; discriminate). rewrite data_eq_dict_iff in *. rewrite Forall_forall in H.
    assert (ND := wf_dict_nodup _ Wv). assert (NE := wf_dict_nodup _ Ww).
    apply sc_dict.
    + intros k x I. destruct (E1 k x I) as [y [L Q]]. assert (J := lookup_In _ _ _ L). exists y. split; auto.
      destruct (E2 k y J) as [x' [L' Q']]. apply lookup_In in L'. assert (x' = x) by exact (nodup_value _ _ _ _ ND L' I). subst x'.
      apply (H (k, x) I); eauto using wf_dict_in, everywhere_dict.
    + intros k I. apply key_in_item in I. destruct I as [y I]. destruct (E2 k y I) as [x [L _]]. apply lookup_In in L.
      eapply in_key; eauto.
  - destruct w as [| | | | | | | |c' e|]; try (simpl in E1; discriminate). rewrite data_eq_obj_iff in *. rewrite Forall_forall in H.
    destruct E1 as [<- E1]. destruct E2 as [_ E2].
    assert (ND := wf_obj_nodup _ _ Wv). assert (NE := wf_obj_nodup _ _ Ww).
    apply sc_obj.
    + intros k x I [C _]. destruct (E1 k x I C) as [y [L Q]]. assert (J := lookup_In _ _ _ L). exists y. split; auto.
      destruct (E2 k y J C) as [x' [L' Q']]. apply lookup_In in L'. assert (x' = x) by exact (nodup_value _ _ _ _ ND L' I). subst x'.
      apply (H (k, x) I); eauto using wf_obj_in, everywhere_obj.
    + intros k I [C _]. apply key_in_item in I. destruct I as [y I]. destruct (E2 k y I C) as [x [L _]]. apply lookup_In in L.
      eapply in_key; eauto.
  - exfalso. apply everywhere_here in Cv. exact (Cv n b eq_refl).
Qed.

Lemma object_hash_bounds c d h : choose_hash (VObj c d) = Some h -> (0 <= h < 100000)%Z.
Proof.
  simpl. unfold data_hash. destruct (osum _) as [z|]; [|discriminate]. destruct (float_of z) as [f|]; simpl; [|discriminate].
  intros E. inversion E. apply Z.mod_pos_bound. lia.
Qed.

(** A tower of [n] two-element lists *)
Fixpoint tower (n : nat) : val := match n with O => VStr "a" | S m => VList [VStr "a"; tower m] end.
Lemma tower_hash n : exists h, choose_hash (tower n) = Some h /\ (2 ^ (12 * Z.of_nat n) <= h)%Z.
Proof.
  induction n as [|n [h [E L]]]; [exists 97%Z; split; [reflexivity|simpl; lia]|].
  exists (2 * 97 + 5381 * h)%Z. split.
  - cbn [tower DataModel.choose_hash map]. rewrite E. reflexivity.
  - replace (12 * Z.of_nat (S n))%Z with (12 + 12 * Z.of_nat n)%Z by lia.
    rewrite Z.pow_add_r by lia. change (2 ^ 12)%Z with 4096%Z. lia.
Qed.

Lemma single_attribute c k t h : hashed_key c k = true -> choose_hash t = Some h ->
  choose_hash (VObj c [(k, t)]) = option_map (fun f => (f mod 100000)%Z) (float_of h).
Proof.
  intros C E. cbn [DataModel.choose_hash map fst snd]. rewrite C, E. unfold data_hash. cbn [osum fold_right oadd].
  rewrite Z.add_0_r. reflexivity.
Qed.

(** Attributes that do not count *)
Lemma hash_set_uncounted c k v d : hashed_key c k = false ->
  choose_hash (VObj c (set_key k v d)) = choose_hash (VObj c d).
Proof.
  intros H. cbn [DataModel.choose_hash]. unfold data_hash.
  assert (E : osum (map (fun kv => if hashed_key c (fst kv) then choose_hash (snd kv) else Some 0%Z) (set_key k v d))
            = osum (map (fun kv => if hashed_key c (fst kv) then choose_hash (snd kv) else Some 0%Z) d)).
  { induction d as [|[j y] d IH].
    - simpl. rewrite H. reflexivity.
    - cbn [set_key]. destruct (key_eqb k j) eqn:Q.
      + apply key_eqb_eq in Q. subst j. simpl. rewrite H. reflexivity.
      + cbn [map]. cbn [osum fold_right]. unfold osum in *. rewrite IH. reflexivity. }
  rewrite E. reflexivity.
Qed.

Lemma hash_perm_dict d e : NoDup (map fst d) -> Permutation d e -> choose_hash (VDict d) = choose_hash (VDict e).
Proof.
  intros ND P. cbn [DataModel.choose_hash]. apply dict_hash_perm.
  - rewrite map_map. simpl. auto.
  - apply Permutation_map. auto.
Qed.
Lemma hash_perm_obj c d e : Permutation d e -> choose_hash (VObj c d) = choose_hash (VObj c e).
Proof.
  intros P. cbn [DataModel.choose_hash]. unfold data_hash. erewrite osum_perm; [reflexivity|]. apply Permutation_map. auto.
Qed.
End C.

(** Lemmas on serialisation without pointers. *)
From Coq Require Import ZArith Lia Bool String Ascii List.
From Verif Require Import Base BaseProofs PyValue DataProofs SerialModel SerialSpec.
Import ListNotations.
Open Scope string_scope.
Open Scope list_scope.

(** ** Dictionaries *)
Lemma In_lookup {A} k (x : A) d : NoDup (map fst d) -> (In (k, x) d <-> lookup k d = Some x).
Proof. intros N. split; [apply lookup_nodup; auto|apply lookup_In]. Qed.
Lemma key_within_iff k l : key_within k l = true <-> In k (map KStr l).
Proof. unfold key_within. rewrite memb_In; [reflexivity|]. intros; apply key_eqb_eq. Qed.
Lemma is_private_iff k : is_private k = true <-> underscored k.
Proof.
  unfold underscored. destruct k as [[|c s]| |]; simpl; try (split; [discriminate|intros [t E]; discriminate]).
  split.
  - intros E. apply Ascii.eqb_eq in E. subst. eauto.
  - intros [t E]. inversion E; subst. apply Ascii.eqb_refl.
Qed.

Lemma nodup_set {A} k (x : A) d : NoDup (map fst d) -> NoDup (map fst (set_key k x d)).
Proof.
  induction d as [|[j y] d IH]; simpl; intros N.
  - constructor; auto.
  - inversion N; subst. destruct (key_eqb k j) eqn:E; simpl.
    + apply key_eqb_eq in E. subst. constructor; auto.
    + constructor; auto. intros M. rewrite set_key_keys in M. destruct (has_key k d); auto. apply in_app_iff in M.
      destruct M as [M|[->|[]]]; auto. rewrite key_eqb_refl in E. discriminate.
Qed.
Lemma update_nodup {A} (items : list (key * A)) : forall d, NoDup (map fst d) -> NoDup (map fst (update d items)).
Proof. induction items as [|[k x] items IH]; simpl; intros d N; auto. apply IH. apply nodup_set. auto. Qed.
Lemma update_lookup {A} (items : list (key * A)) : forall d k, NoDup (map fst items) ->
  lookup k (update d items) = match lookup k items with Some x => Some x | None => lookup k d end.
Proof.
  induction items as [|[j y] items IH]; simpl; intros d k N; auto. inversion N; subst. rewrite IH by auto.
  destruct (key_eqb k j) eqn:E.
  - apply key_eqb_eq in E. subst. assert (L : lookup j items = None) by (apply lookup_None; auto). rewrite L. apply lookup_set_same.
  - destruct (lookup k items); auto. apply lookup_set_other. intros ->. rewrite key_eqb_refl in E. discriminate.
Qed.

Section L.
Variable f : val -> res val.
Lemma map_seq_ok l r : map_seq f l = Ok r <-> Forall2 (fun x y => f x = Ok y) l r.
Proof.
  revert r. induction l as [|x l IH]; intros r; simpl.
  - split; [intros E; inversion E; constructor|intros E; inversion E; auto].
  - split.
    + destruct (f x) as [y|] eqn:F; simpl; [|discriminate]. destruct (map_seq f l) as [r'|] eqn:M; simpl; [|discriminate].
      intros E; inversion E; subst. constructor; auto. apply IH. auto.
    + intros E. inversion E as [|x0 y l0 r' F E']; subst. rewrite F. simpl. apply IH in E'. rewrite E'. reflexivity.
Qed.
Lemma map_items_ok keep d r : map_items f keep d = Ok r <->
  Forall2 (fun kx ky => fst kx = fst ky /\ f (snd kx) = Ok (snd ky)) (filter (fun kx => keep (fst kx)) d) r.
Proof.
  revert r. induction d as [|[k x] d IH]; intros r; simpl.
  - split; [intros E; inversion E; constructor|intros E; inversion E; auto].
  - destruct (keep k); auto. split.
    + destruct (f x) as [y|] eqn:F; simpl; [|discriminate]. destruct (map_items f keep d) as [r'|] eqn:M; simpl; [|discriminate].
      intros E; inversion E; subst. constructor; auto. apply IH. auto.
    + intros E. inversion E as [|x0 [j y] l0 r' [F1 F2] E']; subst. simpl in *. subst. rewrite F2. simpl. apply IH in E'. rewrite E'. reflexivity.
Qed.
End L.
Section L2.
Variable str_key : key -> string.
Variable f : string -> bool -> val -> res val.
Lemma subobjects_ok path keep ann d r : subobjects str_key f path keep ann d = Ok r <->
  Forall2 (fun kx ky => fst kx = fst ky /\ f (slash path (str_key (fst kx))) (ann (fst kx)) (snd kx) = Ok (snd ky))
          (filter (fun kx => keep (fst kx)) d) r.
Proof.
  revert r. induction d as [|[k x] d IH]; intros r; simpl.
  - split; [intros E; inversion E; constructor|intros E; inversion E; auto].
  - destruct (keep k); auto. split.
    + destruct (f (slash path (str_key k)) (ann k) x) as [y|] eqn:F; simpl; [|discriminate].
      destruct (subobjects str_key f path keep ann d) as [r'|] eqn:M; simpl; [|discriminate].
      intros E; inversion E; subst. constructor; auto. apply IH. auto.
    + intros E. inversion E as [|x0 [j y] l0 r' [F1 F2] E']; subst. simpl in *. subst. rewrite F2. simpl. apply IH in E'. rewrite E'. reflexivity.
Qed.
Variable str_nat : nat -> string.
Lemma elements_ok path : forall l i r, elements f str_nat path i l = Ok r <->
  (length r = length l /\ forall j x, nth_error l j = Some x -> exists y, nth_error r j = Some y /\ f (slash path (str_nat (i + j)%nat)) false x = Ok y).
Proof.
  induction l as [|x l IH]; intros i r; simpl.
  - split.
    + intros E; inversion E; subst. split; auto. intros [|j] x H; discriminate.
    + intros [L _]. destruct r; [auto|discriminate].
  - split.
    + destruct (f (slash path (str_nat i)) false x) as [y|] eqn:F; simpl; [|discriminate].
      destruct (elements f str_nat path (S i) l) as [r'|] eqn:M; simpl; [|discriminate].
      intros E; inversion E; subst. apply IH in M. destruct M as [L M]. split; [simpl; auto|].
      intros [|j] z H; simpl in *.
      * inversion H; subst. exists y. rewrite Nat.add_0_r. auto.
      * destruct (M _ _ H) as [w [W1 W2]]. exists w. split; auto. rewrite Nat.add_succ_r. exact W2.
    + intros [L M]. destruct r as [|y r]; [discriminate|]. destruct (M O x eq_refl) as [w [W1 W2]]. simpl in W1. inversion W1; subst.
      rewrite Nat.add_0_r in W2. rewrite W2. simpl.
      assert (E : elements f str_nat path (S i) l = Ok r).
      { apply IH. split; [simpl in L; lia|]. intros j z H. destruct (M (S j) z H) as [u [U1 U2]]. exists u. split; auto.
        rewrite Nat.add_succ_r in U2. exact U2. }
      rewrite E. reflexivity.
Qed.
End L2.

Lemma Forall2_keys {A B} (R : A -> B -> Prop) (d : list (key * A)) (e : list (key * B)) :
  Forall2 (fun kx ky => fst kx = fst ky /\ R (snd kx) (snd ky)) d e -> map fst e = map fst d.
Proof. induction 1 as [|x y d e [H1 _]]; simpl; congruence. Qed.
Lemma Forall2_in_left {A B} (R : A -> B -> Prop) l m x : Forall2 R l m -> In x l -> exists y, In y m /\ R x y.
Proof. induction 1; simpl; [tauto|]. intros [->|H1]; [eauto|]. destruct (IHForall2 H1) as [z [Z1 Z2]]. eauto. Qed.
Lemma Forall2_in_right {A B} (R : A -> B -> Prop) l m y : Forall2 R l m -> In y m -> exists x, In x l /\ R x y.
Proof. induction 1; simpl; [tauto|]. intros [->|H1]; [eauto|]. destruct (IHForall2 H1) as [z [Z1 Z2]]. eauto. Qed.
Lemma Forall2_exists {A B} (R : A -> B -> Prop) l : (forall x, In x l -> exists y, R x y) -> exists m, Forall2 R l m.
Proof.
  induction l as [|x l IH]; intros H; [exists []; constructor|]. destruct (H x) as [y Y]; simpl; auto.
  destruct IH as [m M]; [intros; apply H; simpl; auto|]. exists (y :: m). constructor; auto.
Qed.

Section S.
Variable non_serializable : string -> list string.
Variable jsonable : val -> bool.
Variable annotation_of_class : string -> string.
Notation serialize := (serialize non_serializable jsonable annotation_of_class).
Notation serialised := (serialised non_serializable).
Notation kept c := (fun k => negb (key_within k (non_serializable c)) && negb (is_private k)).

Lemma kept_iff c k : kept c k = true <-> serialised c k.
Proof using non_serializable.
  simpl. unfold SerialSpec.serialised. rewrite andb_true_iff, !negb_true_iff, <- key_within_iff, <- is_private_iff, !not_true_iff_false. reflexivity.
Qed.

(** what serialising an object gives *)
Lemma serialize_obj c d s : serialize (VObj c d) = Ok s ->
  exists name items, lookup (KStr "name") d = Some name
   /\ Forall2 (fun kx ky => fst kx = fst ky /\ serialize (snd kx) = Ok (snd ky)) (filter (fun kx => kept c (fst kx)) d) items
   /\ s = VDict (update [(KStr "object_class", VStr c); (KStr "name", name)] items).
Proof.
  cbn [SerialModel.serialize]. unfold base_dict. destruct (lookup (KStr "name") d) as [name|]; simpl; [|discriminate].
  destruct (map_items serialize (kept c) d) as [items|] eqn:M; simpl; [|discriminate]. intros E; inversion E; subst.
  exists name, items. split; auto. split; auto. apply map_items_ok in M. exact M.
Qed.
Lemma items_nodup c d items : NoDup (map fst d) ->
  Forall2 (fun kx ky => fst kx = fst ky /\ serialize (snd kx) = Ok (snd ky)) (filter (fun kx => kept c (fst kx)) d) items ->
  NoDup (map fst items).
Proof. intros N F. rewrite (Forall2_keys (fun x y => serialize x = Ok y) _ _ F). apply filter_nodup. auto. Qed.

Lemma wf_items (d : list (key * val)) : Forall (fun kv => wf_val (snd kv)) d -> forall k x, In (k, x) d -> wf_val x.
Proof. intros F k x H. rewrite Forall_forall in F. apply (F _ H). Qed.

Lemma serialize_content c d s : wf_val (VObj c d) -> serialize (VObj c d) = Ok s -> ~ In (KStr "object_class") (map fst d) ->
  exists e, s = VDict e /\ NoDup (map fst e) /\ In (KStr "object_class", VStr c) e /\ In (KStr "name") (map fst e)
   /\ forall k, k <> KStr "object_class" -> k <> KStr "name" ->
        (In k (map fst e) <-> In k (map fst d) /\ serialised c k)
        /\ forall y, In (k, y) e -> exists x, In (k, x) d /\ serialize x = Ok y.
Proof.
  intros W S NO. apply serialize_obj in S. destruct S as [name [items [L [F ->]]]]. pose proof (wf_obj_nodup _ _ W) as N.
  assert (NI : NoDup (map fst items)) by (eapply items_nodup; eauto).
  assert (KI : forall k, In k (map fst items) <-> In k (map fst d) /\ serialised c k).
  { intros k. rewrite (Forall2_keys (fun x y => serialize x = Ok y) _ _ F). rewrite !in_map_iff. split.
    - intros [[j x] [<- I]]. apply filter_In in I. destruct I as [I K]. split; [exists (j, x); auto|]. apply kept_iff. exact K.
    - intros [[[j x] [<- I]] K]. exists (j, x). split; auto. apply filter_In. split; auto. apply kept_iff in K. exact K. }
  eexists. split; [reflexivity|]. set (s := update _ items).
  assert (NS : NoDup (map fst s)) by (apply update_nodup; repeat constructor; simpl; intuition discriminate).
  assert (LS : forall k, lookup k s = match lookup k items with
       | Some x => Some x
       | None => if key_eqb k (KStr "object_class") then Some (VStr c) else if key_eqb k (KStr "name") then Some name else None
       end) by (intros; unfold s; rewrite update_lookup by auto; reflexivity).
  assert (NOI : lookup (KStr "object_class") items = None) by (apply lookup_None; rewrite KI; tauto).
  split; auto. split; [apply lookup_In; rewrite LS, NOI; reflexivity|]. split.
  - apply has_key_In. unfold has_key. rewrite LS. destruct (lookup (KStr "name") items); reflexivity.
  - intros k D1 D2. apply key_eqb_neq in D1, D2.
    assert (LK : lookup k s = lookup k items) by (rewrite LS, D1, D2; destruct (lookup k items); auto). split.
    + rewrite <- KI. rewrite <- !has_key_In. unfold has_key. rewrite LK. reflexivity.
    + intros y Y. apply In_lookup in Y; auto. rewrite LK in Y. apply lookup_In in Y.
      destruct (Forall2_in_right _ _ _ _ F Y) as [[j x] [X1 [X2 X3]]]. simpl in X2, X3. subst. apply filter_In in X1. exists x. tauto.
Qed.

Definition string_name (v : val) : Prop := match v with VObj _ d => exists s, In (KStr "name", VStr s) d | _ => True end.

Lemma update_json base items : NoDup (map fst base) -> NoDup (map fst items) ->
  (forall k x, In (k, x) base -> json x) -> (forall k x, In (k, x) items -> json x) -> json (VDict (update base items)).
Proof.
  intros NB NI HB HI. constructor; [apply update_nodup; auto|]. rewrite Forall_forall. intros [k x] I. simpl.
  apply In_lookup in I; [|apply update_nodup; auto]. rewrite update_lookup in I by auto.
  destruct (lookup k items) as [y|] eqn:L.
  - inversion I; subst. apply (HI k). apply lookup_In. auto.
  - apply (HB k). apply lookup_In. auto.
Qed.

Lemma serialize_json v : wf_val v -> everywhere string_name v -> forall s, serialize v = Ok s -> json s.
Proof.
  induction v using val_ind'; intros W E s0 S.
  - simpl in S. destruct (jsonable VNone); inversion S; constructor.
  - simpl in S. destruct (jsonable (VBool b)); inversion S; constructor.
  - simpl in S. destruct (jsonable (VInt z)); inversion S; constructor.
  - simpl in S. destruct (jsonable (VFloat f)); inversion S; constructor.
  - simpl in S. destruct (jsonable (VStr s)); inversion S; constructor.
  - cbn [SerialModel.serialize] in S. destruct (map_seq serialize l) as [r|] eqn:M; simpl in S; [|discriminate]. inversion S; subst.
    constructor. apply map_seq_ok in M. rewrite Forall_forall. intros y Y. destruct (Forall2_in_right _ _ _ _ M Y) as [x [X1 X2]].
    pose proof (wf_seq _ _ W eq_refl) as Wl. pose proof (everywhere_seq _ _ _ E eq_refl) as El. rewrite Forall_forall in *. eauto.
  - cbn [SerialModel.serialize] in S. destruct (map_seq serialize l) as [r|] eqn:M; simpl in S; [|discriminate]. inversion S; subst.
    constructor. apply map_seq_ok in M. rewrite Forall_forall. intros y Y. destruct (Forall2_in_right _ _ _ _ M Y) as [x [X1 X2]].
    pose proof (wf_seq _ _ W eq_refl) as Wl. pose proof (everywhere_seq _ _ _ E eq_refl) as El. rewrite Forall_forall in *. eauto.
  - cbn [SerialModel.serialize] in S. destruct (map_items serialize (fun _ => true) d) as [r|] eqn:M; simpl in S; [|discriminate]. inversion S; subst.
    apply map_items_ok in M. assert (FD : filter (fun kx : key * val => true) d = d) by (clear; induction d; simpl; congruence).
    rewrite FD in M. constructor.
    + rewrite (Forall2_keys (fun x y => serialize x = Ok y) _ _ M). apply (wf_dict_nodup _ W).
    + rewrite Forall_forall. intros [k y] Y. destruct (Forall2_in_right _ _ _ _ M Y) as [[j x] [X1 [X2 X3]]]. simpl in *. subst.
      rewrite Forall_forall in H. apply (H _ X1); simpl; eauto using wf_dict_in, everywhere_dict.
  - apply serialize_obj in S. destruct S as [name [items [L [F ->]]]]. pose proof (wf_obj_nodup _ _ W) as N.
    apply update_json.
    + simpl. repeat constructor; simpl; intuition discriminate.
    + eapply items_nodup; eauto.
    + pose proof (everywhere_here _ _ E) as [s I]. simpl in I. apply In_lookup in I; auto.
      intros k x [Q|[Q|[]]]; inversion Q; subst; [constructor|]. assert (x = VStr s) by congruence. subst. constructor.
    + intros k y Y. destruct (Forall2_in_right _ _ _ _ F Y) as [[j x] [X1 [X2 X3]]]. simpl in *. subst.
      apply filter_In in X1. destruct X1 as [X1 _]. rewrite Forall_forall in H. apply (H _ X1); simpl; eauto using wf_obj_in, everywhere_obj.
  - simpl in S. inversion S; constructor.
Qed.

Lemma serialize_total v : wf_val v -> everywhere (acceptable_here jsonable) v -> exists s, serialize v = Ok s.
Proof.
  induction v using val_ind'; intros W E; try (apply everywhere_here in E; simpl in E |- *; rewrite E; eauto; fail).
  - cbn [SerialModel.serialize]. destruct (Forall2_exists (fun x y => serialize x = Ok y) l) as [r R].
    + pose proof (wf_seq _ _ W eq_refl) as Wl. pose proof (everywhere_seq _ _ _ E eq_refl) as El. rewrite Forall_forall in *. eauto.
    + apply map_seq_ok in R. rewrite R. simpl. eauto.
  - cbn [SerialModel.serialize]. destruct (Forall2_exists (fun x y => serialize x = Ok y) l) as [r R].
    + pose proof (wf_seq _ _ W eq_refl) as Wl. pose proof (everywhere_seq _ _ _ E eq_refl) as El. rewrite Forall_forall in *. eauto.
    + apply map_seq_ok in R. rewrite R. simpl. eauto.
  - cbn [SerialModel.serialize].
    destruct (Forall2_exists (fun kx ky : key * val => fst kx = fst ky /\ serialize (snd kx) = Ok (snd ky)) (filter (fun kx : key * val => (fun _ => true) (fst kx)) d)) as [r R].
    + intros [k x] I. apply filter_In in I. destruct I as [I _]. rewrite Forall_forall in H.
      destruct (H _ I) as [s S]; simpl; eauto using wf_dict_in, everywhere_dict. exists (k, s). auto.
    + assert (M : map_items serialize (fun _ => true) d = Ok r) by (apply map_items_ok; exact R). rewrite M. simpl. eauto.
  - cbn [SerialModel.serialize]. pose proof (everywhere_here _ _ E) as NM. simpl in NM. unfold base_dict.
    destruct (lookup (KStr "name") d) as [nm|] eqn:L; [|apply lookup_None in L; contradiction]. simpl.
    destruct (Forall2_exists (fun kx ky : key * val => fst kx = fst ky /\ serialize (snd kx) = Ok (snd ky)) (filter (fun kx : key * val => kept c (fst kx)) d)) as [r R].
    + intros [k x] I. apply filter_In in I. destruct I as [I _]. rewrite Forall_forall in H.
      destruct (H _ I) as [s S]; simpl; eauto using wf_obj_in, everywhere_obj. exists (k, s). auto.
    + assert (M : map_items serialize (kept c) d = Ok r) by (apply map_items_ok; exact R). rewrite M. simpl. eauto.
  - simpl. eauto.
Qed.
End S.

Section T.
Variable non_serializable : string -> list string.
Variable str_key : key -> string.
Variable str_nat : nat -> string.
Variable jsonable : val -> bool.
Variable annotation_of_class : string -> string.
Variable class_named : string -> res (option val).
Variable find_class : val -> res string.
Variable arguments : string -> list string.
Variable tuple_annotated : string -> string -> bool.
Variable construct : string -> list (key * val) -> res val.
Notation serialize := (serialize non_serializable jsonable annotation_of_class).
Notation serialised := (serialised non_serializable).
Notation kept c := (fun k => negb (key_within k (non_serializable c)) && negb (is_private k)).
Notation deserialize := (deserialize str_key class_named find_class arguments tuple_annotated construct str_nat).
Notation restored := (restored non_serializable arguments tuple_annotated).
Notation portable := (portable non_serializable annotation_of_class class_named find_class arguments construct).

Lemma lookup_update_base c name items k : NoDup (map fst items) ->
  lookup k (update [(KStr "object_class", VStr c); (KStr "name", name)] items) =
  match lookup k items with
  | Some x => Some x
  | None => if key_eqb k (KStr "object_class") then Some (VStr c) else if key_eqb k (KStr "name") then Some name else None
  end.
Proof. intros N. rewrite update_lookup by auto. reflexivity. Qed.

Lemma round_trip v : wf_val v -> portable v -> forall a p s, serialize v = Ok s ->
  exists w, deserialize [] p a s = Ok w /\ restored a v w.
Proof.
  induction v using val_ind'; intros W P a p s0 S.
  - simpl in S. destruct (jsonable VNone); inversion S; subst. exists VNone. split; [reflexivity|constructor].
  - simpl in S. destruct (jsonable (VBool b)); inversion S; subst. eexists. split; [reflexivity|constructor].
  - simpl in S. destruct (jsonable (VInt z)); inversion S; subst. eexists. split; [reflexivity|constructor].
  - simpl in S. destruct (jsonable (VFloat f)); inversion S; subst. eexists. split; [reflexivity|constructor].
  - simpl in S. destruct (jsonable (VStr s)); inversion S; subst. apply everywhere_here in P. simpl in P.
    exists (VStr s). split; [|constructor]. simpl. rewrite P. reflexivity.
  - cbn [SerialModel.serialize] in S. destruct (map_seq serialize l) as [r|] eqn:M; simpl in S; [|discriminate]. inversion S; subst.
    apply map_seq_ok in M. pose proof (wf_seq _ _ W eq_refl) as Wl. pose proof (everywhere_seq _ _ _ P eq_refl) as Pl.
    assert (EX : exists l', (length l' = length r /\ forall j y, nth_error r j = Some y -> exists w, nth_error l' j = Some w /\
                 deserialize [] (slash p (str_nat (0 + j))) false y = Ok w) /\ Forall2 (restored false) l l').
    { clear S W P. generalize O. revert r M Wl Pl H. induction l as [|x l IH]; intros r M Wl Pl H i; inversion M as [|x0 y l0 r' Sx M']; subst.
      - exists []. split; [split; [auto|intros [|j] y E; discriminate]|constructor].
      - inversion H; subst. inversion Wl; subst. inversion Pl; subst.
        destruct (H2 H4 H6 false (slash p (str_nat i)) y Sx) as [w [D R]].
        destruct (IH r' M' H5 H7 H3 (S i)) as [l' [[L K] F]]. exists (w :: l'). split; [|constructor; auto].
        split; [simpl; auto|]. intros [|j] z E; simpl in *.
        + inversion E; subst. exists w. rewrite Nat.add_0_r. auto.
        + destruct (K _ _ E) as [u [U1 U2]]. exists u. split; auto. rewrite Nat.add_succ_r. exact U2. }
    destruct EX as [l' [K F]]. exists (if a then VTuple l' else VList l'). split; [|apply rs_seq with l; auto].
    cbn [SerialModel.deserialize assoc]. apply elements_ok in K. rewrite K. reflexivity.
  - cbn [SerialModel.serialize] in S. destruct (map_seq serialize l) as [r|] eqn:M; simpl in S; [|discriminate]. inversion S; subst.
    apply map_seq_ok in M. pose proof (wf_seq _ _ W eq_refl) as Wl. pose proof (everywhere_seq _ _ _ P eq_refl) as Pl.
    assert (EX : exists l', (length l' = length r /\ forall j y, nth_error r j = Some y -> exists w, nth_error l' j = Some w /\
                 deserialize [] (slash p (str_nat (0 + j))) false y = Ok w) /\ Forall2 (restored false) l l').
    { clear S W P. generalize O. revert r M Wl Pl H. induction l as [|x l IH]; intros r M Wl Pl H i; inversion M as [|x0 y l0 r' Sx M']; subst.
      - exists []. split; [split; [auto|intros [|j] y E; discriminate]|constructor].
      - inversion H; subst. inversion Wl; subst. inversion Pl; subst.
        destruct (H2 H4 H6 false (slash p (str_nat i)) y Sx) as [w [D R]].
        destruct (IH r' M' H5 H7 H3 (S i)) as [l' [[L K] F]]. exists (w :: l'). split; [|constructor; auto].
        split; [simpl; auto|]. intros [|j] z E; simpl in *.
        + inversion E; subst. exists w. rewrite Nat.add_0_r. auto.
        + destruct (K _ _ E) as [u [U1 U2]]. exists u. split; auto. rewrite Nat.add_succ_r. exact U2. }
    destruct EX as [l' [K F]]. exists (if a then VTuple l' else VList l'). split; [|apply rs_seq with l; auto].
    cbn [SerialModel.deserialize assoc]. apply elements_ok in K. rewrite K. reflexivity.
  - cbn [SerialModel.serialize] in S. destruct (map_items serialize (fun _ => true) d) as [r|] eqn:M; simpl in S; [|discriminate]. inversion S; subst.
    apply map_items_ok in M. assert (FD : forall d : list (key * val), filter (fun kx : key * val => true) d = d) by (clear; intros d; induction d; simpl; congruence).
    rewrite FD in M. pose proof (everywhere_here _ _ P) as PH. simpl in PH. destruct PH as [NR NO].
    assert (KR : map fst r = map fst d) by (apply (Forall2_keys (fun x y => serialize x = Ok y) _ _ M)).
    assert (EX : exists d', Forall2 (fun kx ky => fst kx = fst ky /\
                    deserialize [] (slash p (str_key (fst kx))) false (snd kx) = Ok (snd ky)) r d'
                 /\ Forall2 (fun kx ky => fst kx = fst ky /\ restored false (snd kx) (snd ky)) d d').
    { assert (G : forall k x, In (k, x) d -> wf_val x /\ portable x).
      { intros k x I. split; [eapply wf_dict_in; eauto|]. exact (everywhere_dict _ _ _ _ P I). }
      clear W P S NR NO KR. revert r M H G. induction d as [|[k x] d IH]; intros r M H G; inversion M as [|x0 [j y] l0 r' [E1 E2] M']; subst.
      - exists []. split; constructor.
      - simpl in E1, E2. subst j. inversion H; subst. simpl in *. destruct (G k x) as [G1 G2]; auto.
        destruct (H2 G1 G2 false (slash p (str_key k)) y E2) as [w [D R]].
        destruct (IH r' M' H3) as [d' [D1 D2]]; [intros; eapply G; eauto|]. exists ((k, w) :: d'). split; constructor; auto. }
    destruct EX as [d' [D1 D2]]. exists (VDict d'). split; [|constructor; auto].
    cbn [SerialModel.deserialize assoc]. rewrite <- KR in NR, NO. apply lookup_None in NR, NO. rewrite NR, NO.
    assert (Q : subobjects str_key (deserialize []) p (fun _ => true) (fun _ => false) r = Ok d').
    { apply subobjects_ok. rewrite FD. exact D1. }
    rewrite Q. reflexivity.
  - apply serialize_obj in S. destruct S as [name [items [L [F ->]]]]. pose proof (wf_obj_nodup _ _ W) as N.
    pose proof (everywhere_here _ _ P) as PH. simpl in PH. destruct PH as [FC [NR [NO [NA [[ns NM] RB]]]]].
    apply In_lookup in NM; auto. assert (name = VStr ns) by congruence. subst name. clear L.
    assert (NI : NoDup (map fst items)) by (eapply items_nodup; eauto).
    assert (KI : forall k, In k (map fst items) <-> In k (map fst d) /\ serialised c k).
    { intros k. rewrite (Forall2_keys (fun x y => serialize x = Ok y) _ _ F). rewrite !in_map_iff. split.
      - intros [[j x] [<- I]]. apply filter_In in I. destruct I as [I K]. split; [exists (j, x); auto|]. apply kept_iff. exact K.
      - intros [[[j x] [<- I]] K]. exists (j, x). split; auto. apply filter_In. split; auto. apply kept_iff in K. exact K. }
    assert (NRI : ~ In (KStr "$ref") (map fst items)) by (rewrite KI; tauto).
    assert (NOI : ~ In (KStr "object_class") (map fst items)) by (rewrite KI; tauto).
    set (s := update [(KStr "object_class", VStr c); (KStr "name", VStr ns)] items).
    assert (NS : NoDup (map fst s)) by (apply update_nodup; simpl; repeat constructor; simpl; intuition discriminate).
    assert (LS : forall k, lookup k s = match lookup k items with
         | Some x => Some x
         | None => if key_eqb k (KStr "object_class") then Some (VStr c) else if key_eqb k (KStr "name") then Some (VStr ns) else None
         end) by (intros; apply lookup_update_base; auto).
    assert (CNS : class_named ns = Ok None).
    { apply lookup_In in NM. apply (everywhere_here _ _ (everywhere_obj _ _ _ _ _ P NM)). }
    (* every item under an argument name is restored *)
    assert (IT : forall k x, In (k, x) s -> key_within k (arguments c) = true ->
       exists y, deserialize [] (slash p (str_key k)) (match k with KStr t => tuple_annotated c t | _ => false end) x = Ok y
         /\ ((k = KStr "name" /\ x = VStr ns /\ y = VStr ns) \/
             (exists u, In (k, u) d /\ serialised c k /\ restored (match k with KStr t => tuple_annotated c t | _ => false end) u y))).
    { intros k x I KA. apply In_lookup in I; auto. rewrite LS in I. destruct (lookup k items) as [z|] eqn:LI.
      - inversion I; subst z. apply lookup_In in LI. destruct (Forall2_in_right _ _ _ _ F LI) as [[j u] [U1 [U2 U3]]].
        simpl in U2, U3. subst j. apply filter_In in U1. destruct U1 as [U1 K]. rewrite Forall_forall in H.
        destruct (H _ U1 (wf_obj_in _ _ _ _ W U1) (everywhere_obj _ _ _ _ _ P U1) (match k with KStr t => tuple_annotated c t | _ => false end) (slash p (str_key k)) x U3) as [y [Y1 Y2]].
        exists y. split; auto. right. exists u. split; auto. split; auto. apply kept_iff. exact K.
      - destruct (key_eqb k (KStr "object_class")) eqn:E1.
        + apply key_eqb_eq in E1. subst k. apply key_within_iff in KA. apply in_map_iff in KA. destruct KA as [t [T1 T2]].
          inversion T1; subst. contradiction.
        + destruct (key_eqb k (KStr "name")) eqn:E2; [|discriminate]. apply key_eqb_eq in E2. subst k. inversion I; subst.
          exists (VStr ns). split; [|left; auto]. cbn [SerialModel.deserialize assoc]. rewrite CNS. reflexivity. }
    destruct (Forall2_exists (fun kx ky : key * val => fst kx = fst ky /\
        deserialize [] (slash p (str_key (fst kx))) (match fst kx with KStr t => tuple_annotated c t | _ => false end) (snd kx) = Ok (snd ky))
        (filter (fun kx => key_within (fst kx) (arguments c)) s)) as [kw KW].
    { intros [k x] I. apply filter_In in I. destruct I as [I K]. simpl in K. destruct (IT k x I K) as [y [Y _]]. exists (k, y). auto. }
    assert (KK : map fst kw = map fst (filter (fun kx => key_within (fst kx) (arguments c)) s)).
    { clear -KW. induction KW as [|x y l m [H1 _]]; simpl; congruence. }
    destruct (RB kw) as [d' [C [ND' D']]].
    + rewrite KK. apply filter_nodup. auto.
    + intros t. rewrite KK. rewrite in_map_iff. split.
      * intros [[k x] [E I]]. simpl in E. subst k. apply filter_In in I. destruct I as [I K]. simpl in K.
        pose proof K as K'. apply key_within_iff in K. apply in_map_iff in K. destruct K as [t' [T1 T2]]. inversion T1; subst t'.
        split; auto. destruct (IT _ _ I K') as [y [_ [[E _]|[u [U1 [U2 _]]]]]].
        -- inversion E. auto.
        -- right. split; auto. apply in_map_iff. exists (KStr t, u). auto.
      * intros [TA TK]. assert (KA : key_within (KStr t) (arguments c) = true) by (apply key_within_iff; apply in_map; auto).
        assert (ES : exists x, lookup (KStr t) s = Some x).
        { rewrite LS. destruct (lookup (KStr t) items) as [x|] eqn:LI; [eauto|]. destruct TK as [->|[K1 K2]].
          - simpl. eauto.
          - exfalso. apply lookup_None in LI. apply LI. apply KI. auto. }
        destruct ES as [x X]. apply lookup_In in X. exists (KStr t, x). split; auto. apply filter_In. auto.
    + exists (VObj c d'). split.
      * cbn [SerialModel.deserialize assoc]. rewrite !LS. apply lookup_None in NRI, NOI. rewrite NRI, NOI. simpl (key_eqb _ _). cbv iota.
        rewrite FC. cbn [bind].
        assert (Q : subobjects str_key (deserialize []) p (fun k => key_within k (arguments c))
                      (fun k => match k with KStr t => tuple_annotated c t | _ => false end) s = Ok kw)
          by (apply subobjects_ok; exact KW).
        rewrite Q. exact C.
      * constructor; auto. intros t x I SK TA.
        assert (KA : key_within (KStr t) (arguments c) = true) by (apply key_within_iff; apply in_map; auto).
        assert (ES : exists z, In (KStr t, z) items).
        { assert (M : In (KStr t) (map fst items)). { apply KI. split; auto. apply in_map_iff. exists (KStr t, x). auto. }
          apply in_map_iff in M. destruct M as [[k z] [E M]]. simpl in E. subst. eauto. }
        destruct ES as [z Z]. assert (ZS : In (KStr t, z) s). { apply lookup_In. rewrite LS. apply In_lookup in Z; auto. rewrite Z. reflexivity. }
        destruct (Forall2_in_left _ _ _ (KStr t, z) KW) as [[k y] [Y1 [Y2 Y3]]]; [apply filter_In; auto|]. simpl in Y2, Y3. subst k.
        exists y. split; [apply D'; auto|].
        destruct (Forall2_in_right _ _ _ _ F Z) as [[j u] [U1 [U2 U3]]]. simpl in U2, U3. subst j. apply filter_In in U1. destruct U1 as [U1 K].
        assert (u = x). { apply In_lookup in U1, I; auto. congruence. } subst u.
        rewrite Forall_forall in H.
        destruct (H _ I (wf_obj_in _ _ _ _ W I) (everywhere_obj _ _ _ _ _ P I) (tuple_annotated c t) (slash p (str_key (KStr t))) z U3) as [y' [Y4 Y5]].
        assert (y' = y) by congruence. subst. exact Y5.
  - simpl in S. inversion S; subst. apply everywhere_here in P. simpl in P. exists (VClass n b). split; [|constructor].
    cbn [SerialModel.deserialize assoc]. rewrite P. reflexivity.
Qed.
End T.

From Verif Require Import DataModel DataSpec.
Section E.
Variable non_serializable non_data_eq : string -> list string.
Variable arguments : string -> list string.
Variable tuple_annotated : string -> string -> bool.
Notation data_eq := (data_eq non_serializable non_data_eq).
Notation restored := (restored non_serializable arguments tuple_annotated).

Lemma restored_data_eq v : wf_val v -> nan_free v ->
  everywhere (fun v => forall c d s, v = VObj c d -> In (KStr s) (map fst d) -> counts non_serializable non_data_eq c (KStr s) -> In s (arguments c)) v ->
  forall a w, restored a v w -> data_eq v w = true.
Proof.
  unfold nan_free. induction v using val_ind'; intros W N C a w R.
  - inversion R as [| | | | | |a0 v0 l l' S F| |]; subst; [reflexivity|discriminate].
  - inversion R as [| | | | | |a0 v0 l l' S F| |]; subst; [simpl; apply eqb_reflx|discriminate].
  - inversion R as [| | | | | |a0 v0 l l' S F| |]; subst; [simpl; apply Z.eqb_refl|discriminate].
  - inversion R as [| | | | | |a0 v0 l l' S F| |]; subst; [|discriminate]. simpl. apply isclose_refl.
    apply everywhere_here in N. intros ->. apply N. reflexivity.
  - inversion R as [| | | | | |a0 v0 l l' S F| |]; subst; [simpl; apply String.eqb_refl|discriminate].
  - inversion R as [| | | | | |a0 v0 l0 l' S F| |]; subst. simpl in S. inversion S; subst. rewrite (data_eq_seq_iff non_serializable non_data_eq (VList l0) _ l0 eq_refl).
    exists l'. split; [destruct a; reflexivity|]. pose proof (wf_seq _ _ W eq_refl) as Wl. pose proof (everywhere_seq _ _ _ N eq_refl) as Nl.
    pose proof (everywhere_seq _ _ _ C eq_refl) as Cl. clear - H Wl Nl Cl F.
    revert l' F. induction l0 as [|x l IH]; intros l' F; inversion F; subst; constructor; inversion H; inversion Wl; inversion Nl; inversion Cl; subst; eauto.
  - inversion R as [| | | | | |a0 v0 l0 l' S F| |]; subst. simpl in S. inversion S; subst. rewrite (data_eq_seq_iff non_serializable non_data_eq (VTuple l0) _ l0 eq_refl).
    exists l'. split; [destruct a; reflexivity|]. pose proof (wf_seq _ _ W eq_refl) as Wl. pose proof (everywhere_seq _ _ _ N eq_refl) as Nl.
    pose proof (everywhere_seq _ _ _ C eq_refl) as Cl. clear - H Wl Nl Cl F.
    revert l' F. induction l0 as [|x l IH]; intros l' F; inversion F; subst; constructor; inversion H; inversion Wl; inversion Nl; inversion Cl; subst; eauto.
  - inversion R as [| | | | | |a0 v0 l0 l' S F|a0 d0 d' F|]; subst; [discriminate|]. rewrite data_eq_dict_iff. intros k x I.
    destruct (Forall2_in_left _ _ _ _ F I) as [[j y] [Y1 [Y2 Y3]]]. simpl in Y2, Y3. subst j. exists y. split.
    + apply lookup_nodup; auto. rewrite (Forall2_keys _ _ _ F). apply (wf_dict_nodup _ W).
    + rewrite Forall_forall in H. apply (H _ I) with (a := false); auto; [apply (wf_dict_in _ _ _ W I)|apply (everywhere_dict _ _ _ _ N I)|apply (everywhere_dict _ _ _ _ C I)].
  - inversion R as [| | | | | |a0 v0 l0 l' S F| |a0 c0 d0 d' ND F]; subst; [discriminate|]. rewrite data_eq_obj_iff. split; auto.
    intros k x I K. assert (KS : exists s, k = KStr s).
    { inversion W; subst. rewrite Forall_forall in H3. apply (H3 _ I). }
    destruct KS as [s ->]. destruct (F s x I) as [y [Y1 Y2]].
    + destruct K as [K1 [K2 _]]. split.
      * intros M. apply in_map_iff in M. destruct M as [t [E M]]. apply (K2 t M). auto.
      * intros [t E]. apply (K1 t E).
    + apply (everywhere_here _ _ C c d s eq_refl); auto. apply in_map_iff. exists (KStr s, x). auto.
    + exists y. split; [apply lookup_nodup; auto|]. rewrite Forall_forall in H.
      apply (H _ I) with (a := tuple_annotated c s); auto; [apply (wf_obj_in _ _ _ _ W I)|apply (everywhere_obj _ _ _ _ _ N I)|apply (everywhere_obj _ _ _ _ _ C I)].
  - inversion R as [| | | | | |a0 v0 l l' S F| |]; subst; [reflexivity|discriminate].
Qed.
End E.

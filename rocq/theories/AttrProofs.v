(** Lemmas on blocks that read and write attributes. *)
From Coq Require Import ZArith Bool String Ascii List Lia.
From Verif Require Import Base PathsModel PathsSpec PathsProofs AttrModel AttrSpec.
Import ListNotations.
Open Scope string_scope.
Open Scope list_scope.

Lemma entry_iff k d v : entry k d = Some v <-> exists d1 d2, d = d1 ++ (k, v) :: d2 /\ ~ In k (map fst d1).
Proof.
  induction d as [|[k' w] d IH]; simpl.
  - split; [discriminate|]. intros (d1 & d2 & E & _). destruct d1; discriminate.
  - destruct (String.eqb_spec k k') as [->|N].
    + split.
      * intros [= ->]. exists [], d. split; auto.
      * intros (d1 & d2 & E & NI). destruct d1 as [|[k1 w1] d1]; simpl in E; inversion E; subst; auto.
        exfalso. apply NI. left. reflexivity.
    + rewrite IH. split.
      * intros (d1 & d2 & -> & NI). exists ((k', w) :: d1), d2. split; auto. simpl. intros [?|?]; auto.
      * intros (d1 & d2 & E & NI). destruct d1 as [|[k1 w1] d1]; simpl in E; inversion E; subst; [congruence|].
        exists d1, d2. split; auto. intro. apply NI. right. auto.
Qed.

Lemma entry_set k v d m : entry m (set_entry k v d) = if String.eqb m k then Some v else entry m d.
Proof.
  induction d as [|[k' w] d IH]; simpl; auto.
  destruct (String.eqb_spec k k') as [->|N]; simpl.
  - destruct (String.eqb_spec m k'); auto.
  - destruct (String.eqb_spec m k') as [->|M].
    + destruct (String.eqb_spec k' k); congruence.
    + exact IH.
Qed.

Lemma attribute_entry h a n v : attribute h a n v <-> exists d, h a = Inst d /\ entry n d = Some v.
Proof.
  unfold attribute. split.
  - intros (d1 & d2 & E & N). exists (d1 ++ (n, v) :: d2). split; auto. apply entry_iff. eauto.
  - intros (d & E & H). apply entry_iff in H. destruct H as (d1 & d2 & -> & N). eauto.
Qed.

Lemma py_get_iff {A} (l : list A) z w : py_get l z = Ok w <->
  exists l1 l2, l = l1 ++ w :: l2 /\ (z = Z.of_nat (List.length l1) \/ z = (- Z.of_nat (S (List.length l2)))%Z).
Proof.
  unfold py_get. split.
  - destruct (py_index (List.length l) z) as [i|] eqn:I; [|discriminate].
    apply py_index_iff in I. destruct I as [L I].
    destruct (nth_error l i) as [x|] eqn:E; [|discriminate]. intros [= ->].
    apply nth_error_split in E. destruct E as (l1 & l2 & -> & <-). exists l1, l2. split; auto.
    rewrite app_length in I. simpl in I. destruct I as [I|I]; [left|right]; lia.
  - intros (l1 & l2 & -> & Z).
    assert (py_index (List.length (l1 ++ w :: l2)) z = Some (List.length l1)) as ->.
    { apply py_index_iff. rewrite app_length. simpl. split; [lia|]. destruct Z; lia. }
    rewrite nth_error_app2, Nat.sub_diag by lia. reflexivity.
Qed.

Lemma chars_app s t : list_ascii_of_string (s ++ t) = list_ascii_of_string s ++ list_ascii_of_string t.
Proof. induction s as [|c s IH]; simpl; auto. rewrite IH. reflexivity. Qed.

Lemma chars_inj s t : list_ascii_of_string s = list_ascii_of_string t -> s = t.
Proof. intro E. rewrite <- (string_of_list_ascii_of_string s), <- (string_of_list_ascii_of_string t), E. reflexivity. Qed.

Lemma tuple_like_iff s : tuple_like s = true <-> between_brackets s.
Proof.
  unfold tuple_like, between_brackets. split.
  - intro H. apply andb_true_iff in H. destruct H as [H C]. apply andb_true_iff in H. destruct H as [H L].
    apply existsb_exists in C. destruct C as (c & I & E). apply Ascii.eqb_eq in E. subst c.
    apply Ascii.eqb_eq in L. destruct s as [|c s]; simpl in *; [discriminate|]. apply Ascii.eqb_eq in H. subst c.
    destruct (list_ascii_of_string s) as [|x l] eqn:S; [discriminate L|].
    destruct (@exists_last _ (x :: l)) as (mid & y & E); [discriminate|]. rewrite E in *.
    assert (last (mid ++ [y]) " "%char = ")"%char) as L' by (destruct mid; auto). rewrite last_last in L'. subst y.
    exists (string_of_list_ascii mid). rewrite list_ascii_of_string_of_list_ascii. split.
    + apply chars_inj. simpl. rewrite chars_app, list_ascii_of_string_of_list_ascii, S. reflexivity.
    + destruct I as [I|I]; [discriminate|]. apply in_app_or in I. destruct I as [I|[I|[]]]; [auto|discriminate].
  - intros (mid & -> & I). simpl. rewrite chars_app. simpl. apply andb_true_iff. split.
    + apply Ascii.eqb_eq. destruct (list_ascii_of_string mid ++ [")"%char]) as [|x l] eqn:E.
      * destruct (list_ascii_of_string mid); discriminate.
      * rewrite <- E. apply last_last.
    + apply existsb_exists. exists ","%char. split; [|reflexivity]. apply in_or_app. auto.
Qed.

Section Attr.
Variable int_of : string -> option Z.

Lemma extract_iff h v s w : extract int_of h v s = Ok w <-> part int_of h v s w.
Proof.
  split.
  - destruct v as [n|a]; simpl; [discriminate|]. destruct (h a) as [d|l|d] eqn:E.
    + destruct (entry s d) eqn:F; simpl; [|discriminate]. intros [= ->]. apply entry_iff in F.
      destruct F as (d1 & d2 & -> & N). eapply PInst; eauto.
    + destruct (int_of s) as [z|] eqn:I; simpl; [|discriminate]. intro G. apply py_get_iff in G.
      destruct G as (l1 & l2 & -> & [->| ->]); [eapply PFront|eapply PBack]; eauto.
    + destruct (entry s d) eqn:F; simpl; [|discriminate]. intros [= ->]. apply entry_iff in F.
      destruct F as (d1 & d2 & -> & N). eapply PDict; eauto.
  - intros [a d1 d2 s' w' E N|a d1 d2 s' w' E N|a l1 w' l2 s' E I|a l1 w' l2 s' E I]; simpl; rewrite E.
    + assert (entry s' (d1 ++ (s', w') :: d2) = Some w') as -> by (apply entry_iff; eauto). reflexivity.
    + assert (entry s' (d1 ++ (s', w') :: d2) = Some w') as -> by (apply entry_iff; eauto). reflexivity.
    + rewrite I. simpl. apply py_get_iff. eauto.
    + rewrite I. cbv [of_option bind]. apply py_get_iff. exists l1, l2. split; auto.
Qed.

Lemma fold_reaches h segs : forall v w, foldM (extract int_of h) segs v = Ok w <-> reaches int_of h v segs w.
Proof.
  induction segs as [|s segs IH]; intros v w; simpl.
  - split; [intros [= ->]; constructor|]. intro H. inversion H. reflexivity.
  - split.
    + destruct (extract int_of h v s) as [x|] eqn:E; simpl; [|discriminate]. intro F.
      apply extract_iff in E. apply IH in F. econstructor; eauto.
    + intro H. inversion H; subst. match goal with P : part _ _ _ _ _ |- _ => apply extract_iff in P; rewrite P end.
      simpl. apply IH. assumption.
Qed.

Lemma extract_refuses h v s e : (forall w, ~ part int_of h v s w) -> refuses int_of h v s e -> extract int_of h v s = Err e.
Proof.
  intros N R. assert (forall w, extract int_of h v s <> Ok w) as X by (intros w E; apply extract_iff in E; exact (N w E)).
  destruct R as [n s|a d s E|a l s E I|a l s i E I|a d s E T|a d s E T]; simpl in *; rewrite ?E in *.
  - reflexivity.
  - destruct (entry s d); simpl in *; [destruct (X v eq_refl)|reflexivity].
  - rewrite I. reflexivity.
  - rewrite I in *. cbn [of_option bind] in *. unfold py_get in *.
    destruct (py_index (List.length l) i); [|reflexivity]. destruct (nth_error l n); [destruct (X v eq_refl)|reflexivity].
  - destruct (entry s d); simpl in *; [destruct (X v eq_refl)|]. apply tuple_like_iff in T. rewrite T. reflexivity.
  - destruct (entry s d); simpl in *; [destruct (X v eq_refl)|]. destruct (tuple_like s) eqn:TL; auto.
    apply tuple_like_iff in TL. contradiction.
Qed.

Lemma split_pieces s : Forall no_slash (PathsModel.split s).
Proof.
  induction s as [|c s IH]; simpl.
  - constructor; [intros []|constructor].
  - destruct (Ascii.eqb_spec c "/") as [->|N].
    + constructor; [intros []|auto].
    + destruct (PathsModel.split s) as [|x l] eqn:E.
      * constructor; [|constructor]. intros [H|[]]. congruence.
      * inversion IH; subst. constructor; auto. intros [H|H]; [congruence|auto].
Qed.

(** Two heaps that agree on some names. *)
Definition agree (N : string -> Prop) (h h' : heap) : Prop :=
  forall a, match h a, h' a with
            | Inst d, Inst d' => forall s, N s -> entry s d' = entry s d
            | _, _ => h' a = h a
            end.

Lemma agree_inst N h h' : agree N h h' <-> forall a,
  (exists d d', h a = Inst d /\ h' a = Inst d' /\ forall s, N s -> entry s d' = entry s d) \/ h' a = h a.
Proof.
  split; intros A a; specialize (A a).
  - destruct (h a) as [d|l|d]; destruct (h' a) as [d'|l'|d']; auto. left. eauto.
  - destruct A as [(d & d' & E & E' & H)|E]; [rewrite E, E'; auto|]. rewrite E. destruct (h a); auto.
Qed.
Lemma agree_refl N h : agree N h h.
Proof. apply agree_inst. auto. Qed.
Lemma agree_trans N h1 h2 h3 : agree N h1 h2 -> agree N h2 h3 -> agree N h1 h3.
Proof.
  rewrite !agree_inst. intros A B a. specialize (A a). specialize (B a).
  destruct A as [(d1 & d2 & E1 & E2 & H)|E]; destruct B as [(d3 & d4 & E3 & E4 & K)|F].
  - left. exists d1, d4. rewrite E2 in E3. injection E3 as <-. repeat split; auto. intros s S. rewrite K, H; auto.
  - left. exists d1, d2. rewrite F. auto.
  - left. exists d3, d4. rewrite <- E. auto.
  - right. congruence.
Qed.
Lemma agree_sym N h1 h2 : agree N h1 h2 -> agree N h2 h1.
Proof.
  rewrite !agree_inst. intros A a. specialize (A a). destruct A as [(d1 & d2 & E1 & E2 & H)|E]; [left|auto].
  exists d2, d1. repeat split; auto. intros s S. symmetry. auto.
Qed.

Lemma fold_agree N h h' segs : agree N h h' -> Forall N segs ->
  forall v, foldM (extract int_of h') segs v = foldM (extract int_of h) segs v.
Proof.
  intros A F. induction F as [|s segs S F IH]; intro v; simpl; auto.
  assert (extract int_of h' v s = extract int_of h v s) as ->.
  { destruct v as [n|a]; simpl; auto. rewrite agree_inst in A. destruct (A a) as [(d & d' & E & E' & H)|E].
    - rewrite E, E', H by auto. reflexivity.
    - rewrite E. reflexivity. }
  destruct (extract int_of h v s); simpl; auto.
Qed.

Lemma set_agree (N : string -> Prop) h name v x h' v' : ~ N name -> set_block h name v x = Ok (h', v') -> agree N h h' /\ v' = v.
Proof.
  destruct v as [n|a]; simpl; [discriminate|]. destruct (h a) as [d|l|d] eqn:E; try discriminate.
  intros NN [= <- <-]. split; auto. apply agree_inst. intro b. unfold store. destruct (Nat.eqb_spec b a) as [->|NE]; auto.
  left. exists d. eexists. split; [auto|split; [reflexivity|]].
  intros s S. rewrite entry_set. destruct (String.eqb_spec s name); subst; [contradiction|auto].
Qed.

(** A block that writes does the same thing in heaps that agree on names. *)
Lemma set_both (N : string -> Prop) h1 h2 name v x h1' w : agree N h1 h2 -> ~ N name -> set_block h1 name v x = Ok (h1', w) ->
  exists h2', set_block h2 name v x = Ok (h2', w) /\ agree N h1' h2'.
Proof.
  intros A NN S. pose proof S as S0. destruct v as [n|a]; simpl in *; [discriminate|].
  destruct (h1 a) as [d|l|d] eqn:E; try discriminate.
  assert (exists d2, h2 a = Inst d2) as (d2 & E2).
  { pose proof A as B. rewrite agree_inst in B. destruct (B a) as [(? & ? & _ & ? & _)|B']; eauto. rewrite B', E. eauto. }
  rewrite E2.
  injection S as <- <-. eexists. split; [reflexivity|].
  eapply agree_trans; [apply agree_sym; eapply (set_agree N h1 name (Ref a) x); [auto|simpl; rewrite E; reflexivity]|].
  eapply agree_trans; [exact A|].
  eapply (set_agree N h2 name (Ref a) x); [auto|simpl; rewrite E2; reflexivity].
Qed.

Lemma run_agree (N : string -> Prop) bs : forall h e h' e', (forall n, sets bs n -> ~ N n) ->
  run int_of bs h e = Ok (h', e') -> agree N h h'.
Proof.
  induction bs as [|b bs IH]; intros h e h' e' S; unfold run; cbn [foldM].
  - intros [= <- <-]. apply agree_refl.
  - destruct (eval_block int_of (h, e) b) as [[h1 e1]|] eqn:B; cbn [bind]; [|discriminate]. intro R.
    assert (agree N h1 h') as A1.
    { apply (IH h1 e1 h' e'); auto. intros n (m & x & o & I). apply S. exists m, x, o. right. exact I. }
    eapply agree_trans; [|exact A1]. destruct b as [name m out|name m x out]; simpl in B.
    + destruct (value_of m e); simpl in B; [|discriminate].
      destruct (get_block int_of h name v); simpl in B; [|discriminate]. injection B as <- <-. apply agree_refl.
    + destruct (value_of m e) as [v|]; simpl in B; [|discriminate].
      destruct (value_of x e) as [w|]; simpl in B; [|discriminate].
      destruct (set_block h name v w) as [[h2 v2]|] eqn:E; simpl in B; [|discriminate]. injection B as <- <-.
      eapply set_agree; [|exact E]. apply S. exists m, x, out. left. reflexivity.
Qed.

Lemma run_same (N : string -> Prop) bs : forall h1 h2 e h1' e', agree N h1 h2 ->
  (forall n, sets bs n -> ~ N n) ->
  (forall name m o, In (Get name m o) bs -> Forall N (segments ("#/" ++ name))) ->
  run int_of bs h1 e = Ok (h1', e') -> exists h2', run int_of bs h2 e = Ok (h2', e') /\ agree N h1' h2'.
Proof.
  induction bs as [|b bs IH]; intros h1 h2 e h1' e' A S G; unfold run; cbn [foldM].
  - intros [= <- <-]. eauto.
  - destruct (eval_block int_of (h1, e) b) as [[h3 e3]|] eqn:B; cbn [bind]; [|discriminate]. intro R.
    assert (exists h4, eval_block int_of (h2, e) b = Ok (h4, e3) /\ agree N h3 h4) as (h4 & B2 & A2).
    { destruct b as [name m out|name m x out]; simpl in B |- *.
      - destruct (value_of m e) as [v|]; simpl in B |- *; [|discriminate].
        unfold get_block in *. rewrite (fold_agree N h1 h2) by (auto; eapply G; left; reflexivity).
        destruct (foldM (extract int_of h1) _ v); simpl in B |- *; [|discriminate]. injection B as <- <-. eauto.
      - destruct (value_of m e) as [v|]; simpl in B |- *; [|discriminate].
        destruct (value_of x e) as [w|]; simpl in B |- *; [|discriminate].
        destruct (set_block h1 name v w) as [[h5 v5]|] eqn:E; simpl in B; [|discriminate]. injection B as <- <-.
        destruct (set_both N h1 h2 name v w h5 v5) as (h6 & E6 & A6); auto.
        { apply S. exists m, x, out. left. reflexivity. }
        rewrite E6. simpl. eauto. }
    rewrite B2. cbn [bind]. apply (IH h3 h4 e3 h1' e'); auto.
    + intros n (m & x & o & I). apply S. exists m, x, o. right. exact I.
    + intros name m o I. eapply G. right. exact I.
Qed.
End Attr.

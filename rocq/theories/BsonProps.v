(** C14: BSON documents. *)
From Coq Require Import ZArith String Ascii Bool Arith Lia DecimalString DecimalFacts DecimalZ List.
From Verif Require Import Base BsonModel.
Import ListNotations.
Open Scope string_scope.
Open Scope list_scope.
Open Scope nat_scope.

Section DocInd.
Variable P : doc -> Prop.
Hypothesis H1 : P DNone.
Hypothesis H2 : forall b, P (DBool b).
Hypothesis H3 : forall z, P (DInt z).
Hypothesis H4 : forall r, P (DFloat r).
Hypothesis H5 : forall s, P (DStr s).
Hypothesis H6 : forall k l, Forall P l -> P (DSeq k l).
Hypothesis H7 : forall d, Forall (fun kv => P (snd kv)) d -> P (DDict d).
Hypothesis H8 : P DOther.
Fixpoint doc_ind' (v : doc) : P v :=
  match v with
  | DNone => H1 | DBool b => H2 b | DInt z => H3 z | DFloat r => H4 r | DStr s => H5 s
  | DSeq k l => H6 k l ((fix all l : Forall P l := match l with [] => Forall_nil _ | x :: l' => Forall_cons x (doc_ind' x) (all l') end) l)
  | DDict d => H7 d ((fix all d : Forall (fun kv => P (snd kv)) d :=
      match d with [] => Forall_nil _ | kv :: d' => Forall_cons kv (doc_ind' (snd kv)) (all d') end) d)
  | DOther => H8
  end.
End DocInd.

(** ** Spec *)

(** no dot in a string *)
Definition dotless (s : string) : Prop := forall i, String.get i s <> Some "."%char.

Definition key_ok (allow : bool) (k : bkey) : Prop :=
  match k with
  | KStr s => dotless s
  | KInt _ | KBool _ => allow = true
  | KFloat _ | KOther _ => False
  end.

(** The documents that can be stored *)
Inductive storable (allow : bool) : doc -> Prop :=
| st_none : storable allow DNone
| st_bool b : storable allow (DBool b)
| st_int z : storable allow (DInt z)
| st_float r : storable allow (DFloat r)
| st_str s : storable allow (DStr s)
| st_seq k l : Forall (storable allow) l -> storable allow (DSeq k l)
| st_dict d : Forall (fun kv => key_ok allow (fst kv) /\ storable allow (snd kv)) d -> storable allow (DDict d).

Lemma has_dot_spec s : has_dot s = false <-> dotless s.
Proof.
  unfold dotless. induction s as [|a s IH]; simpl.
  - split; [intros _ [|i]; discriminate|auto].
  - destruct (Ascii.eqb_spec a ".") as [->|N]; simpl.
    + split; [discriminate|]. intros H. specialize (H 0). simpl in H. congruence.
    + rewrite IH. split; [intros H [|i]; simpl; auto; congruence|intros H i; apply (H (S i))].
Qed.

Lemma first_invalid_spec {A} (check : A -> bool * string) l :
  (fst (first_invalid check l) = true <-> forall x, In x l -> fst (check x) = true).
Proof.
  induction l as [|x l IH]; simpl; [tauto|]. destruct (check x) as [b h] eqn:E. destruct b.
  - rewrite IH. split; [intros H y [<-|Hy]; auto; rewrite E; auto|auto].
  - simpl. split; [discriminate|]. intros H. specialize (H x (or_introl eq_refl)). rewrite E in H. auto.
Qed.

Lemma key_valid_spec allow k : fst (key_valid allow k) = true <-> key_ok allow k.
Proof.
  destruct k; simpl; try (destruct allow; simpl; intuition congruence); try (simpl; intuition congruence).
  rewrite <- has_dot_spec. destruct (has_dot s); simpl; intuition congruence.
Qed.

(** ** C14 *)

(** The check accepts exactly the documents that can be stored. *)
Theorem C14_valid : forall allow v, fst (is_bson_valid allow v) = true <-> storable allow v.
Proof.
  intros allow v. induction v as [|b|z|r|s|k l IH|d IH|] using doc_ind'; cbn [is_bson_valid];
    try (split; [constructor|auto]; fail).
  - rewrite first_invalid_spec. rewrite Forall_forall in IH. split.
    + intros H. constructor. apply Forall_forall. intros x Hx. apply IH; auto.
    + intros H x Hx. inversion H as [ | | | | |? ? F | ]; subst. rewrite Forall_forall in F. apply IH; auto.
  - rewrite first_invalid_spec. rewrite Forall_forall in IH.
    assert (E : forall kv, In kv d ->
      (fst (let (valid, hint) := key_valid allow (fst kv) in if valid then is_bson_valid allow (snd kv) else (false, hint)) = true
       <-> key_ok allow (fst kv) /\ storable allow (snd kv))).
    { intros kv Hkv. rewrite <- key_valid_spec, <- (IH kv Hkv). destruct (key_valid allow (fst kv)) as [[|] h]; simpl; intuition congruence. }
    split.
    + intros H. constructor. apply Forall_forall. intros x Hx. apply E; auto.
    + intros H x Hx. inversion H as [ | | | | | |? F]; subst. rewrite Forall_forall in F. apply E; auto.
  - simpl. split; [discriminate|intros H; inversion H].
Qed.

(** There is a hint exactly when the document is refused. *)
Theorem C14_hint : forall allow v, snd (is_bson_valid allow v) = "" <-> fst (is_bson_valid allow v) = true.
Proof.
  assert (G : forall A (check : A -> bool * string) l,
    (forall x, In x l -> (snd (check x) = "" <-> fst (check x) = true)) ->
    (snd (first_invalid check l) = "" <-> fst (first_invalid check l) = true)).
  { intros A check l. induction l as [|x l IH]; intros H; simpl; [tauto|].
    specialize (H x (or_introl eq_refl)) as Hx. destruct (check x) as [[|] h]; simpl in *; auto. }
  intros allow v. induction v as [|b|z|r|s|k l IH|d IH|] using doc_ind'; cbn [is_bson_valid]; try (simpl; intuition congruence).
  - apply G. rewrite Forall_forall in IH. auto.
  - apply G. rewrite Forall_forall in IH. intros [k x] Hx. simpl. specialize (IH _ Hx). simpl in IH.
    destruct k; simpl; try (destruct (has_dot s)); try destruct allow; simpl; auto; intuition congruence.
Qed.

(** Allowing non-string keys only accepts more. *)
Theorem C14_allow : forall v, storable false v -> storable true v.
Proof.
  intros v. induction v as [|b|z|r|s|k l IH|d IH|] using doc_ind'; intros H; try constructor; inversion H as [ | | | | |? ? F |? F]; subst.
  - rewrite Forall_forall in *. auto.
  - rewrite Forall_forall in *. intros [k x] Hx. specialize (IH _ Hx). destruct (F _ Hx) as [K S]. simpl in *. split; auto.
    destruct k; simpl in *; auto.
Qed.

(** ** Stringifying keys *)

Definition get (s : string) (d : list (bkey * doc)) : option doc :=
  option_map snd (find (fun kv => match fst kv with KStr k => String.eqb k s | _ => false end) d).

(** the last of the values whose key has a string form *)
Definition last_of (s : string) (d : list (bkey * doc)) : option doc :=
  option_map snd (find (fun kv => String.eqb (str_key (fst kv)) s) (rev d)).

Definition all_str (d : list (bkey * doc)) : Prop := forall kv, In kv d -> exists s, fst kv = KStr s.

Lemma get_set s v k d : all_str d -> get s (set_item k v d) = if String.eqb k s then Some v else get s d.
Proof.
  intros A. induction d as [|[j x] d IH].
  - unfold get. simpl. destruct (String.eqb k s); auto.
  - destruct (A (j, x)) as [t E]; [simpl; auto|]. simpl in E. subst j. cbn [set_item].
    destruct (String.eqb_spec k t) as [->|N].
    + unfold get. simpl. destruct (String.eqb t s); auto.
    + unfold get. cbn [find fst]. destruct (String.eqb_spec t s) as [->|N'].
      * destruct (String.eqb_spec k s); [congruence|auto].
      * fold (get s (set_item k v d)). fold (get s d). apply IH. intros kv Hkv. apply A. simpl. auto.
Qed.

Lemma set_keys k v d : all_str d -> all_str (set_item k v d).
Proof.
  induction d as [|[j x] d IH]; intros A; cbn [set_item].
  - intros kv [<-|[]]. simpl. eauto.
  - destruct (A (j, x)) as [t E]; [simpl; auto|]. simpl in E. subst j.
    destruct (String.eqb k t); intros kv [<-|Hkv]; simpl; eauto.
    + apply A. simpl. auto.
    + apply IH; auto. intros kv' H'. apply A. simpl. auto.
Qed.

Lemma find_app {A} (f : A -> bool) l m : find f (l ++ m) = match find f l with Some x => Some x | None => find f m end.
Proof. induction l as [|x l IH]; simpl; auto. destruct (f x); auto. Qed.

Lemma fold_items d : forall acc, all_str acc ->
  let r := fold_left (fun new_obj kv => set_item (str_key (fst kv)) (snd kv) new_obj) d acc in
  all_str r /\ forall s, get s r = match last_of s d with Some v => Some v | None => get s acc end.
Proof.
  induction d as [|kv d IH]; intros acc A r; simpl in r; [split; auto|].
  destruct (IH (set_item (str_key (fst kv)) (snd kv) acc)) as [I1 I2]; [apply set_keys; auto|]. split; auto.
  intros s. unfold r. rewrite I2. unfold last_of. cbn [rev]. rewrite find_app.
  destruct (find (fun kv0 => String.eqb (str_key (fst kv0)) s) (rev d)); auto. simpl.
  rewrite get_set by auto. destruct (String.eqb (str_key (fst kv)) s); auto.
Qed.

(** Every key of the result is a string; under each string is the last of the values whose
    key has this string form, stringified. *)
Theorem C14_items : forall d, exists d', stringify_dict_keys (DDict d) = DDict d' /\ all_str d'
  /\ forall s, get s d' = option_map stringify_dict_keys (last_of s d).
Proof.
  intros d. cbn [stringify_dict_keys]. eexists. split; [reflexivity|].
  destruct (fold_items (map (fun kv => (fst kv, stringify_dict_keys (snd kv))) d) []) as [I1 I2]; [intros kv []|].
  split; auto. intros s. rewrite I2. unfold last_of. rewrite <- map_rev.
  induction (rev d) as [|[k v] l IH]; simpl; auto. destruct (String.eqb (str_key k) s); auto.
Qed.

(** Without two keys of the same string form, nothing is lost and the order is kept. *)
Theorem C14_lossless : forall d, NoDup (map (fun kv => str_key (fst kv)) d) ->
  stringify_dict_keys (DDict d) = DDict (map (fun kv => (KStr (str_key (fst kv)), stringify_dict_keys (snd kv))) d).
Proof.
  intros d N. cbn [stringify_dict_keys]. f_equal.
  assert (Sx : forall k v acc, ~ In (KStr k) (map fst acc) -> set_item k v acc = acc ++ [(KStr k, v)]).
  { clear. induction acc as [|[j x] acc IH]; intros H; simpl in *; auto.
    destruct j as [s| | | | ]; try (rewrite IH; auto; fail).
    destruct (String.eqb_spec k s) as [->|Ne]; [tauto|]. rewrite IH; auto. }
  assert (G : forall d acc, NoDup (map (fun kv => str_key (fst kv)) d) ->
    (forall kv, In kv d -> ~ In (KStr (str_key (fst kv))) (map fst acc)) ->
    fold_left (fun new_obj kv => set_item (str_key (fst kv)) (snd kv) new_obj)
      (map (fun kv => (fst kv, stringify_dict_keys (snd kv))) d) acc
    = acc ++ map (fun kv => (KStr (str_key (fst kv)), stringify_dict_keys (snd kv))) d).
  { clear d N. induction d as [|kv d IH]; intros acc N H; cbn [map fold_left fst snd]; [rewrite app_nil_r; auto|].
    inversion N as [|? ? Nk N']; subst. rewrite Sx by (apply H; simpl; auto). rewrite IH; auto.
    - rewrite <- app_assoc. auto.
    - intros kv' Hkv'. rewrite map_app, in_app_iff. simpl. intros [I|[I|[]]].
      + apply (H kv'); simpl; auto.
      + injection I as I. apply Nk. rewrite I. apply (in_map (fun kv => str_key (fst kv))). auto. }
  rewrite G; auto.
Qed.

(** Distinct integers have distinct string forms, an integer and a string may not: the value
    under the first one is lost. *)
Theorem C14_integers : forall a b, str_key (KInt a) = str_key (KInt b) -> a = b.
Proof.
  intros a b H. simpl in H.
  assert (G : forall z, NilZero.int_of_string (NilZero.string_of_int (Z.to_int z)) = Some (Z.to_int z)).
  { intros z. apply NilZero.isi. - destruct z; simpl; try discriminate. intros E. injection E as E. revert E. apply DecimalPos.Unsigned.to_uint_nonnil.
    - destruct z; simpl; try discriminate. intros E. injection E as E. revert E. apply DecimalPos.Unsigned.to_uint_nonnil. }
  assert (E : Some (Z.to_int a) = Some (Z.to_int b)) by (rewrite <- !G, H; auto).
  injection E as E. rewrite <- (DecimalZ.of_to a), <- (DecimalZ.of_to b), E. auto.
Qed.

Theorem C14_collision_refuted : forall z x y,
  stringify_dict_keys (DDict [(KInt z, x); (KStr (NilZero.string_of_int (Z.to_int z)), y)])
  = DDict [(KStr (NilZero.string_of_int (Z.to_int z)), stringify_dict_keys y)].
Proof.
  intros. cbn [stringify_dict_keys map fold_left fst snd str_key set_item]. rewrite String.eqb_refl. auto.
Qed.

(** Documents without colliding keys, and with printable keys and values: what is needed for
    the stringified document to be storable. *)
Inductive collision_free : doc -> Prop :=
| cf_none : collision_free DNone
| cf_bool b : collision_free (DBool b)
| cf_int z : collision_free (DInt z)
| cf_float r : collision_free (DFloat r)
| cf_str s : collision_free (DStr s)
| cf_seq k l : Forall collision_free l -> collision_free (DSeq k l)
| cf_dict d : NoDup (map (fun kv => str_key (fst kv)) d) -> Forall (fun kv => collision_free (snd kv)) d -> collision_free (DDict d)
| cf_other : collision_free DOther.

Inductive printable : doc -> Prop :=
| p_none : printable DNone
| p_bool b : printable (DBool b)
| p_int z : printable (DInt z)
| p_float r : printable (DFloat r)
| p_str s : printable (DStr s)
| p_seq k l : k <> Sequence -> Forall printable l -> printable (DSeq k l)
| p_sequence l : storable false (DSeq Sequence l) -> printable (DSeq Sequence l)
| p_dict d : Forall (fun kv => dotless (str_key (fst kv)) /\ printable (snd kv)) d -> printable (DDict d).

Theorem C14_stringified : forall v, collision_free v ->
  (fst (is_bson_valid false (stringify_dict_keys v)) = true <-> printable v).
Proof.
  intros v C. rewrite C14_valid.
  induction v as [|b|z|r|s|k l IH|d IH|] using doc_ind'; try (split; constructor; fail).
  - rewrite Forall_forall in IH. inversion C as [ | | | | |? ? F | | ]; subst. rewrite Forall_forall in F.
    assert (S : (storable false (DSeq List (map stringify_dict_keys l)) <-> Forall printable l)).
    { split.
      - intros H. inversion H as [ | | | | |? ? G |]; subst. rewrite Forall_forall in G. apply Forall_forall. intros x Hx.
        apply IH; auto. apply G. apply in_map. auto.
      - intros H. constructor. apply Forall_forall. intros y Hy. apply in_map_iff in Hy. destruct Hy as (x & <- & Hx).
        rewrite Forall_forall in H. apply IH; auto. }
    destruct k; cbn [stringify_dict_keys].
    + rewrite S. split; [intros; constructor; auto; congruence|intros H; inversion H; auto].
    + rewrite S. split; [intros; constructor; auto; congruence|intros H; inversion H; auto].
    + split; [intros; apply p_sequence; auto|intros H; inversion H as [ | | | | |? ? N | |]; subst; congruence].
  - rewrite Forall_forall in IH. inversion C as [ | | | | | |? N F | ]; subst. rewrite Forall_forall in F.
    rewrite C14_lossless by auto. split.
    + intros H. inversion H as [ | | | | | |? G]; subst. rewrite Forall_forall in G. constructor. apply Forall_forall. intros kv Hkv.
      specialize (G _ (in_map (fun kv => (KStr (str_key (fst kv)), stringify_dict_keys (snd kv))) d kv Hkv)). simpl in G.
      destruct G as [G1 G2]. split; auto. apply IH; auto.
    + intros H. inversion H as [ | | | | | | |? G]; subst. rewrite Forall_forall in G. constructor. apply Forall_forall. intros y Hy.
      apply in_map_iff in Hy. destruct Hy as (kv & <- & Hkv). destruct (G _ Hkv) as [G1 G2]. simpl. split; auto. apply IH; auto.
  - simpl. split; intros H; inversion H.
Qed.

(** A second pass changes nothing. *)
Theorem C14_idempotent : forall v, stringify_dict_keys (stringify_dict_keys v) = stringify_dict_keys v.
Proof.
  assert (U : forall d acc, NoDup (map (fun kv => str_key (fst kv)) acc) -> all_str acc ->
    NoDup (map (fun kv => str_key (fst kv)) (fold_left (fun new_obj (kv : bkey * doc) => set_item (str_key (fst kv)) (snd kv) new_obj) d acc))).
  { assert (K : forall k v acc s, In s (map (fun kv => str_key (fst kv)) (set_item k v acc)) -> s = k \/ In s (map (fun kv => str_key (fst kv)) acc)).
    { clear. induction acc as [|[j x] acc IH]; intros s; simpl; [intuition|].
      destruct (match j with KStr s0 => String.eqb k s0 | _ => false end); simpl; [auto|].
      intros [H|H]; auto. destruct (IH s H); auto. }
    induction d as [|kv d IH]; intros acc N A; simpl; auto. apply IH; [|apply set_keys; auto].
    clear IH. induction acc as [|[j x] acc IHa]; simpl; [constructor; auto; constructor|].
    destruct (A (j, x)) as [t E]; [simpl; auto|]. simpl in E. subst j. inversion N as [|? ? N1 N2]; subst.
    destruct (String.eqb_spec (str_key (fst kv)) t) as [E|E]; simpl; [constructor; auto|].
    constructor; [|apply IHa; auto; intros kv' H'; apply A; simpl; auto].
    intros H. apply K in H. simpl in *. destruct H; auto. }
  assert (V : forall d acc kv, In kv (fold_left (fun new_obj (kv : bkey * doc) => set_item (str_key (fst kv)) (snd kv) new_obj) d acc) ->
    In (snd kv) (map snd d) \/ In (snd kv) (map snd acc)).
  { assert (K : forall k v acc kv, In kv (set_item k v acc) -> snd kv = v \/ In (snd kv) (map snd acc)).
    { clear. induction acc as [|[j x] acc IH]; intros kv; simpl; [intros [<-|[]]; auto|].
      destruct (match j with KStr s0 => String.eqb k s0 | _ => false end); simpl; intros [<-|H]; simpl; auto.
      - right. right. apply in_map. auto.
      - destruct (IH kv H); auto. }
    induction d as [|p d IH]; intros acc kv H; simpl in *; [right; apply in_map; auto|].
    destruct (IH _ _ H) as [I|I]; auto. apply in_map_iff in I. destruct I as (q & Eq & Iq). apply K in Iq. rewrite <- Eq.
    destruct Iq; auto. }
  intros v. induction v as [|b|z|r|s|k l IH|d IH|] using doc_ind'; auto.
  - destruct k; auto; cbn [stringify_dict_keys]; f_equal; rewrite map_map; apply map_ext_in; intros x Hx; rewrite Forall_forall in IH; auto.
  - destruct (C14_items d) as (d' & E & A & _). rewrite E.
    assert (N : NoDup (map (fun kv => str_key (fst kv)) d')).
    { cbn [stringify_dict_keys] in E. injection E as <-. apply U; [constructor|intros kv []]. }
    rewrite C14_lossless by auto. f_equal. rewrite <- (map_id d') at 2. apply map_ext_in. intros kv Hkv.
    destruct (A kv Hkv) as [t Et]. destruct kv as [k x]. simpl in *. subst k. simpl. f_equal.
    cbn [stringify_dict_keys] in E. injection E as <-. apply V in Hkv. destruct Hkv as [H|[]]. simpl in H.
    rewrite map_map in H. simpl in H. apply in_map_iff in H. destruct H as (kv & <- & Hkv). rewrite Forall_forall in IH. auto.
Qed.

Print Assumptions C14_valid.
Print Assumptions C14_hint.
Print Assumptions C14_allow.
Print Assumptions C14_items.
Print Assumptions C14_lossless.
Print Assumptions C14_integers.
Print Assumptions C14_collision_refuted.
Print Assumptions C14_stringified.
Print Assumptions C14_idempotent.

(** ** Examples *)

Example C14_valid_example :
  is_bson_valid false (DDict [(KStr "a", DSeq Tuple [DInt 1; DNone]); (KStr "b.c", DStr "x")]) = (false, "dot")
  /\ is_bson_valid true (DDict [(KInt 3, DSeq List [DDict [(KStr "a", DFloat "1.5")]])]) = (true, "")
  /\ is_bson_valid false (DSeq List [DDict [(KInt 3, DNone)]]) = (false, "nonstring key").
Proof. repeat split; reflexivity. Qed.

Example C14_stringify_example :
  stringify_dict_keys (DDict [(KInt (-12), DSeq Tuple [DDict [(KBool true, DInt 1)]]); (KOther "None", DNone)])
  = DDict [(KStr "-12", DSeq List [DDict [(KStr "True", DInt 1)]]); (KStr "None", DNone)]
  /\ stringify_dict_keys (DDict [(KInt 1, DStr "lost"); (KStr "2", DNone); (KStr "1", DStr "kept")])
  = DDict [(KStr "1", DStr "kept"); (KStr "2", DNone)].
Proof. split; reflexivity. Qed.

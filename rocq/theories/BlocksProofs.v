(** Proofs about the collection blocks. *)
From Coq Require Import ZArith Lia Arith String Ascii List.
From Verif Require Import Base BaseProofs BlocksModel BlocksSpec.
Import ListNotations.
Open Scope string_scope.
Open Scope list_scope.
Open Scope nat_scope.

Lemma Forall2_len {A B} (R : A -> B -> Prop) l m : Forall2 R l m -> List.length l = List.length m.
Proof. induction 1; simpl; congruence. Qed.

Lemma dict_get_in values x v : is_dict values -> (dict_get values x = Ok v <-> In (x, v) values).
Proof.
  unfold is_dict, dict_get. induction values as [|[y w] values IH]; simpl; intros Hd.
  - split; [discriminate|tauto].
  - inversion Hd as [|? ? Hni Hd']; subst. destruct (Nat.eqb_spec y x) as [->|Hne].
    + simpl. split.
      * intros [= ->]. auto.
      * intros [[= ->]|Hin]; auto. exfalso. apply Hni. apply in_map_iff. exists (x, v). auto.
    + rewrite (IH Hd'). split; [auto|]. intros [[= ]|]; congruence.
Qed.

Lemma dict_get_missing values x : dict_get values x = Err KeyError <-> ~ In x (map fst values).
Proof.
  unfold dict_get. induction values as [|[y w] values IH]; simpl; [tauto|].
  destruct (Nat.eqb_spec y x) as [->|Hne]; simpl.
  - split; [discriminate|tauto].
  - rewrite IH. tauto.
Qed.

Lemma dict_get_err values x e : dict_get values x = Err e -> e = KeyError.
Proof. unfold dict_get. destruct (find _ _); congruence. Qed.

Lemma mapM_forall2 {A B} (f : A -> res B) l r : mapM f l = Ok r <-> Forall2 (fun x y => f x = Ok y) l r.
Proof.
  revert r. induction l as [|x l IH]; simpl; intros r.
  - split; [intros [= <-]; constructor|]. inversion 1; auto.
  - split.
    + destruct (f x) as [y|] eqn:E; [|discriminate]; simpl.
      destruct (mapM f l) as [ys|] eqn:E'; [|discriminate]; simpl. intros [= <-].
      constructor; [auto|]. apply IH. auto.
    + inversion 1 as [|? y ? ys E F]; subst. rewrite E. simpl.
      apply IH in F. rewrite F. auto.
Qed.

Lemma bound_mapM values inputs vs : is_dict values ->
  (mapM (dict_get values) inputs = Ok vs <-> bound values inputs vs).
Proof.
  intros Hd. rewrite mapM_forall2. unfold bound. split; intros F;
    (induction F as [|x y l r H F IH]; constructor; [apply dict_get_in|]; auto).
Qed.

Lemma mapM_dict_missing values inputs x : In x inputs -> ~ In x (map fst values) ->
  mapM (dict_get values) inputs = Err KeyError.
Proof.
  induction inputs as [|y inputs IH]; simpl; [tauto|]. intros Hin Hm.
  destruct (dict_get values y) as [v|e] eqn:E; simpl.
  - destruct Hin as [->|Hin].
    + apply dict_get_missing in Hm. congruence.
    + rewrite IH; auto.
  - apply dict_get_err in E. congruence.
Qed.

Lemma bound_missing_dec values inputs : (exists vs, mapM (dict_get values) inputs = Ok vs)
  \/ mapM (dict_get values) inputs = Err KeyError.
Proof.
  induction inputs as [|x inputs IH]; simpl; [eauto|].
  destruct (dict_get values x) as [v|e] eqn:E; simpl.
  - destruct IH as [[vs E']|E']; rewrite E'; simpl; eauto.
  - apply dict_get_err in E. subst. auto.
Qed.

(** ** Iteration *)

Lemma chars_are_chars s l : chars_are s l <-> chars s = l.
Proof.
  revert l. induction s as [|c s IH]; simpl; intros l.
  - split; [inversion 1; auto|]. intros <-. constructor.
  - split.
    + inversion 1 as [|? ? ? H']; subst. f_equal. apply IH. auto.
    + intros <-. constructor. apply IH. auto.
Qed.

Lemma chars_length s : List.length (chars s) = String.length s.
Proof. induction s; simpl; auto. Qed.

Lemma py_get_nat {A} (l : list A) n : py_get l (Z.of_nat n) = of_option IndexError (nth_error l n).
Proof.
  unfold py_get, py_index. rewrite (proj2 (Z.leb_le 0 (Z.of_nat n))) by lia.
  destruct (Z.ltb_spec (Z.of_nat n) (Z.of_nat (List.length l))) as [H|H].
  - rewrite Nat2Z.id. unfold of_option. destruct (nth_error l n); auto.
  - assert (nth_error l n = None) as -> by (apply nth_error_None; lia). auto.
Qed.

Lemma skipn_nth {A} : forall (l : list A) k y, nth_error l k = Some y ->
  skipn k l = y :: skipn (S k) l.
Proof.
  induction l as [|x l IH]; intros [|k] y E; simpl in *; try discriminate.
  - congruence.
  - rewrite (IH k y E). auto.
Qed.

Lemma iter_items_data l : forall d fuel, l <> [] -> d <= List.length l ->
  d < fuel -> iter_items fuel (VData l) (Z.of_nat (List.length l - d)) = Ok (skipn (List.length l - d) l).
Proof.
  induction d as [|d IH]; intros fuel Hne Hd Hf; (destruct fuel as [|fuel]; [lia|]).
  - simpl. destruct l as [|x l]; [congruence|]. rewrite py_get_nat, Nat.sub_0_r.
    assert (nth_error (x :: l) (List.length (x :: l)) = None) as -> by (apply nth_error_None; lia).
    unfold of_option. rewrite skipn_all. auto.
  - cbn [iter_items]. destruct l as [|x l]; [congruence|].
    assert (Hlt : List.length (x :: l) - S d < List.length (x :: l)) by (simpl in *; lia).
    unfold py_item. rewrite py_get_nat.
    destruct (nth_error (x :: l) (List.length (x :: l) - S d)) as [y|] eqn:E.
    2:{ apply nth_error_None in E. lia. }
    unfold of_option.
    replace (Z.of_nat (List.length (x :: l) - S d) + 1)%Z
      with (Z.of_nat (List.length (x :: l) - d)) by lia.
    rewrite IH; [|auto|lia|lia]. unfold bind. f_equal.
    replace (List.length (x :: l) - d) with (S (List.length (x :: l) - S d)) by lia.
    symmetry. apply skipn_nth. auto.
Qed.

Lemma iter_items_short l : forall fuel i, l <> [] -> i <= List.length l ->
  fuel <= List.length l - i -> iter_items fuel (VData l) (Z.of_nat i) = Err OutOfFuel.
Proof.
  induction fuel as [|fuel IH]; intros i Hne Hi Hf; [auto|].
  cbn [iter_items]. destruct l as [|x l]; [congruence|]. unfold py_item. rewrite py_get_nat.
  destruct (nth_error (x :: l) i) as [y|] eqn:E.
  2:{ apply nth_error_None in E. lia. }
  unfold of_option. replace (Z.of_nat i + 1)%Z with (Z.of_nat (S i)) by lia.
  assert (i < List.length (x :: l)) by (apply nth_error_Some; congruence).
  rewrite IH; auto; lia.
Qed.

Lemma iter_items_empty fuel : forall i, iter_items fuel (VData []) i = Err OutOfFuel.
Proof. induction fuel as [|fuel IH]; intros i; simpl; auto. rewrite IH. auto. Qed.

Lemma py_iter_elements fuel v l : elements v l -> size v <= fuel -> py_iter fuel v = Ok l.
Proof.
  intros H Hs. inversion H; subst; simpl in *; auto.
  - pose proof (iter_items_data (x :: l0) (List.length (x :: l0)) fuel) as E.
    rewrite Nat.sub_diag in E. apply E; simpl in *; try discriminate; lia.
  - f_equal. apply chars_are_chars. auto.
Qed.

Lemma py_iter_sound fuel v l : py_iter fuel v = Ok l -> elements v l.
Proof.
  destruct v; simpl; try discriminate.
  - intros [= <-]. constructor. apply chars_are_chars. auto.
  - intros [= <-]. constructor.
  - intros [= <-]. constructor.
  - destruct l0 as [|x l0]; [rewrite iter_items_empty; discriminate|].
    intros E. destruct (le_lt_dec fuel (List.length (x :: l0))) as [H|H].
    + pose proof (iter_items_short (x :: l0) fuel 0) as E'. simpl in E', E, H.
      rewrite E' in E; try discriminate; lia.
    + pose proof (py_iter_elements fuel (VData (x :: l0)) (x :: l0) (el_data x l0)) as E'.
      simpl in E', H. rewrite E' in E by lia. injection E as <-. constructor.
Qed.

Lemma elements_det v l l' : elements v l -> elements v l' -> l = l'.
Proof.
  intros H H'. pose proof (py_iter_elements (size v) v l H (le_n _)).
  pose proof (py_iter_elements (size v) v l' H' (le_n _)). congruence.
Qed.

Lemma not_iterable_iter fuel v : not_iterable v -> py_iter fuel v = Err TypeError.
Proof. destruct v; simpl; tauto. Qed.

Lemma iter_cases fuel v : (exists l, elements v l /\ py_iter fuel v = Ok l)
  \/ (not_iterable v /\ py_iter fuel v = Err TypeError)
  \/ py_iter fuel v = Err OutOfFuel.
Proof.
  destruct v as [z|s|l|l|l|c id]; simpl; auto.
  - left. exists (chars s). split; auto. constructor. apply chars_are_chars. auto.
  - left. exists l. split; auto. constructor.
  - left. exists l. split; auto. constructor.
  - destruct l as [|x l]; [right; right; apply iter_items_empty|].
    destruct (le_lt_dec fuel (List.length (x :: l))) as [H|H].
    + right; right. apply (iter_items_short (x :: l) fuel 0); simpl in *; try discriminate; lia.
    + left. exists (x :: l). split; [constructor|].
      apply (py_iter_elements fuel (VData (x :: l)) (x :: l) (el_data x l)). simpl in *; lia.
Qed.

(** ** Concatenation *)

Lemma ty_eqb_iff x y : ty_eqb x y = true <-> x = y.
Proof.
  destruct x, y; simpl; split; intros H; try congruence.
  - apply Nat.eqb_eq in H. congruence.
  - injection H as ->. apply Nat.eqb_refl.
Qed.

Lemma dedup_same (t : ty) l : (forall x, In x l -> x = t) -> dedup ty_eqb [t] l = [].
Proof.
  induction l as [|x l IH]; simpl; intros H; auto.
  rewrite (H x) by auto.
  assert (ty_eqb t t = true) as -> by (apply ty_eqb_iff; auto). simpl. apply IH. auto.
Qed.

Lemma types_one vs : (exists t, vs <> [] /\ forall v, In v vs -> type_of v = t) ->
  List.length (dedup ty_eqb [] (map type_of vs)) = 1.
Proof.
  intros (t & Hne & H). destruct vs as [|v vs]; [congruence|]. simpl.
  rewrite (H v) by (simpl; auto). rewrite dedup_same; auto.
  intros x Hin. apply in_map_iff in Hin. destruct Hin as (w & <- & Hin). apply H. simpl; auto.
Qed.

Lemma types_many vs v w : In v vs -> In w vs -> type_of v <> type_of w ->
  List.length (dedup ty_eqb [] (map type_of vs)) <> 1.
Proof.
  intros Hv Hw Hne Hl.
  destruct (dedup ty_eqb [] (map type_of vs)) as [|t [|t' r]] eqn:E; try discriminate.
  assert (Hall : forall x, In x (map type_of vs) -> x = t).
  { intros x Hin.
    assert (In x (dedup ty_eqb [] (map type_of vs))) as Hin'.
    { apply (dedup_In ty_eqb ty_eqb_iff). split; auto. }
    rewrite E in Hin'. destruct Hin' as [<-|[]]. auto. }
  apply Hne. rewrite (Hall (type_of v)), (Hall (type_of w)); auto; apply in_map; auto.
Qed.

Lemma foldM_extend_list lists : forall acc,
  foldM extend (map VList lists) (VList acc) = Ok (VList (acc ++ concat lists)).
Proof.
  induction lists as [|l lists IH]; intros acc; simpl.
  - rewrite app_nil_r. auto.
  - rewrite IH, app_assoc. auto.
Qed.

Lemma foldM_extend_data lists : forall acc,
  foldM extend (map VData lists) (VData acc) = Ok (VData (acc ++ concat lists)).
Proof.
  induction lists as [|l lists IH]; intros acc; simpl.
  - rewrite app_nil_r. auto.
  - rewrite IH, app_assoc. auto.
Qed.

Lemma concatenate_lists lists : lists <> [] ->
  concatenate (map VList lists) = Ok (VList (concat lists)).
Proof.
  intros Hne. unfold concatenate.
  rewrite types_one.
  - change (negb (1 =? 1)) with false. cbv iota. destruct lists as [|l lists]; [congruence|].
    exact (foldM_extend_list (l :: lists) []).
  - exists TList. split; [destruct lists; simpl; congruence|].
    intros v Hin. apply in_map_iff in Hin. destruct Hin as (x & <- & _). auto.
Qed.

Lemma concatenate_datasets lists : lists <> [] ->
  concatenate (map VData lists) = Ok (VData (concat lists)).
Proof.
  intros Hne. unfold concatenate.
  rewrite types_one.
  - change (negb (1 =? 1)) with false. cbv iota. destruct lists as [|l lists]; [congruence|].
    exact (foldM_extend_data (l :: lists) []).
  - exists TData. split; [destruct lists; simpl; congruence|].
    intros v Hin. apply in_map_iff in Hin. destruct Hin as (x & <- & _). auto.
Qed.

Lemma concatenate_mixed vs v w : In v vs -> In w vs -> type_of v <> type_of w ->
  concatenate vs = Err TypeError.
Proof.
  intros Hv Hw Hne. unfold concatenate.
  pose proof (types_many vs v w Hv Hw Hne) as H. apply Nat.eqb_neq in H. rewrite H. auto.
Qed.

Lemma concatenate_other vs t : vs <> [] -> (forall v, In v vs -> type_of v = t) ->
  t <> TList -> t <> TData -> concatenate vs = Err ValueError.
Proof.
  intros Hne H Hl Hd. unfold concatenate. rewrite types_one by eauto. simpl.
  destruct vs as [|v vs]; [congruence|]. pose proof (H v (or_introl eq_refl)) as Ht.
  destruct v; simpl in *; congruence.
Qed.

(** ** Flatten *)

Lemma foldM_flatten fuel vs : forall acc ls,
  Forall2 (fun v l => py_iter fuel v = Ok l) vs ls ->
  foldM (fun acc v => let* m := py_iter fuel v in Ok (acc ++ m)) vs acc = Ok (acc ++ concat ls).
Proof.
  intros acc ls F. revert acc. induction F as [|v l vs ls E F IH]; intros acc; simpl.
  - rewrite app_nil_r. auto.
  - rewrite E. simpl. rewrite IH, app_assoc. auto.
Qed.

Lemma foldM_flatten_inv fuel vs : forall acc out,
  foldM (fun acc v => let* m := py_iter fuel v in Ok (acc ++ m)) vs acc = Ok out ->
  exists ls, Forall2 (fun v l => py_iter fuel v = Ok l) vs ls.
Proof.
  induction vs as [|v vs IH]; intros acc out; simpl; [eauto|].
  destruct (py_iter fuel v) as [l|] eqn:E; [|discriminate]. simpl. intros H.
  apply IH in H. destruct H as [ls F]. eauto.
Qed.

(** ** Product *)

Definition sizes (lists : list (list val)) : list nat := map (@List.length val) lists.

Lemma product_length lists : List.length (product lists) = fold_right Nat.mul 1 (sizes lists).
Proof.
  induction lists as [|l lists IH]; simpl; auto.
  rewrite <- IH. induction l as [|x l IH']; simpl; auto.
  rewrite app_length, map_length, IH'. auto.
Qed.

Lemma flat_map_nth {A B} (f : A -> list B) (n : nat) : forall l i j x,
  (forall y, In y l -> List.length (f y) = n) -> nth_error l i = Some x -> j < n ->
  nth_error (flat_map f l) (i * n + j) = nth_error (f x) j.
Proof.
  induction l as [|y l IH]; intros i j x Hn Hi Hj; [destruct i; discriminate|].
  destruct i as [|i]; simpl in *.
  - injection Hi as ->. rewrite nth_error_app1; auto. rewrite Hn by auto. lia.
  - rewrite nth_error_app2; rewrite Hn by auto; [|lia].
    replace (n + i * n + j - n) with (i * n + j) by lia. apply IH; auto.
Qed.

Lemma nth_error_map' {A B} (f : A -> B) l : forall n, nth_error (map f l) n = option_map f (nth_error l n).
Proof. induction l; destruct n; simpl; auto. Qed.

Lemma rank_lt lists : forall ps, Forall2 (fun l p => p < List.length l) lists ps ->
  rank (sizes lists) ps < fold_right Nat.mul 1 (sizes lists).
Proof.
  induction lists as [|l lists IH]; intros ps F; inversion F as [|? p ? ps' Hp F']; subst; simpl; [lia|].
  apply IH in F'. set (m := fold_right Nat.mul 1 (sizes lists)) in *.
  assert (S p * m <= List.length l * m) by (apply Nat.mul_le_mono_r; lia). simpl in *. lia.
Qed.

Lemma designates_bounds lists ps vs : designates lists ps vs ->
  Forall2 (fun l p => p < List.length l) lists ps.
Proof.
  unfold designates. intros [F Hlen]. revert ps vs F Hlen.
  induction lists as [|l lists IH]; intros [|p ps] vs F Hlen; try discriminate; constructor; simpl in *.
  - inversion F as [|? v ? vs' E F']; subst. simpl in E.
    apply nth_error_Some. congruence.
  - inversion F as [|? v ? vs' E F']; subst. apply (IH ps vs'); auto.
Qed.

Lemma product_nth lists : forall ps vs, designates lists ps vs ->
  nth_error (product lists) (rank (sizes lists) ps) = Some vs.
Proof.
  induction lists as [|l lists IH]; intros ps vs D.
  - destruct D as [F Hlen]. destruct ps; [|discriminate]. inversion F; subst. auto.
  - pose proof (designates_bounds _ _ _ D) as B.
    destruct D as [F Hlen]. destruct ps as [|p ps]; [discriminate|].
    inversion F as [|? v ? vs' E F']; subst. simpl in E. simpl in Hlen.
    inversion B as [|? ? ? ? Hp B']; subst.
    cbn [sizes map rank product].
    fold (sizes lists).
    rewrite (flat_map_nth _ _ l p (rank (sizes lists) ps) v).
    + rewrite nth_error_map'. rewrite (IH ps vs'); [auto|]. split; auto.
    + intros y _. rewrite map_length. apply product_length.
    + auto.
    + apply rank_lt. auto.
Qed.

Lemma rank_onto lists : forall n, n < fold_right Nat.mul 1 (sizes lists) ->
  exists ps vs, designates lists ps vs /\ rank (sizes lists) ps = n.
Proof.
  induction lists as [|l lists IH]; intros n Hn.
  - simpl in Hn. exists [], []. split; [split; [constructor|auto]|]. simpl. lia.
  - cbn [sizes map fold_right] in Hn. fold (sizes lists) in Hn.
    set (m := fold_right Nat.mul 1 (sizes lists)) in *.
    assert (m <> 0) as Hm by (intros E; rewrite E in Hn; lia).
    pose proof (Nat.div_mod n m Hm) as Hdm.
    pose proof (Nat.mod_upper_bound n m Hm) as Hmod.
    destruct (IH (n mod m) Hmod) as (ps & vs & D & Hr).
    assert (n / m < List.length l) as Hdiv.
    { apply Nat.div_lt_upper_bound; auto. lia. }
    destruct (nth_error l (n / m)) as [v|] eqn:E; [|apply nth_error_None in E; lia].
    exists (n / m :: ps), (v :: vs). split.
    + destruct D as [F Hlen]. split; simpl; [constructor; auto|lia].
    + cbn [sizes map rank]. fold (sizes lists). fold m. rewrite Hr. lia.
Qed.

Lemma rank_lex lists : forall ps qs,
  Forall2 (fun l p => p < List.length l) lists ps -> Forall2 (fun l p => p < List.length l) lists qs ->
  (lex ps qs <-> rank (sizes lists) ps < rank (sizes lists) qs).
Proof.
  induction lists as [|l lists IH]; intros ps qs F G;
    inversion F as [|? p ? ps' Hp F']; subst; inversion G as [|? q ? qs' Hq G']; subst; simpl; [lia|].
  pose proof (rank_lt _ _ F') as B1. pose proof (rank_lt _ _ G') as B2.
  specialize (IH _ _ F' G'). set (m := fold_right Nat.mul 1 (sizes lists)) in *. split.
  - intros [Hlt|[-> Hl]].
    + assert (S p * m <= q * m) by (apply Nat.mul_le_mono_r; lia). simpl in *. lia.
    + apply IH in Hl. lia.
  - intros Hr. destruct (lt_eq_lt_dec p q) as [[H|H]|H]; auto.
    + right. split; auto. apply IH. subst. lia.
    + assert (S q * m <= p * m) by (apply Nat.mul_le_mono_r; lia). simpl in *. lia.
Qed.

Lemma rank_inj lists : forall ps qs,
  Forall2 (fun l p => p < List.length l) lists ps -> Forall2 (fun l p => p < List.length l) lists qs ->
  rank (sizes lists) ps = rank (sizes lists) qs -> ps = qs.
Proof.
  induction lists as [|l lists IH]; intros ps qs F G;
    inversion F as [|? p ? ps' Hp F']; subst; inversion G as [|? q ? qs' Hq G']; subst; simpl; auto.
  pose proof (rank_lt _ _ F') as B1. pose proof (rank_lt _ _ G') as B2.
  set (m := fold_right Nat.mul 1 (sizes lists)) in *. intros E.
  destruct (lt_eq_lt_dec p q) as [[H|H]|H].
  - assert (S p * m <= q * m) by (apply Nat.mul_le_mono_r; lia). simpl in *. lia.
  - subst. f_equal. apply IH; auto. lia.
  - assert (S q * m <= p * m) by (apply Nat.mul_le_mono_r; lia). simpl in *. lia.
Qed.

(** ** For each *)

Lemma dict_set_get d x v y : dict_get (dict_set d x v) y = if Nat.eqb x y then Ok v else dict_get d y.
Proof.
  unfold dict_get. induction d as [|[z w] d IH]; simpl.
  - destruct (Nat.eqb x y); auto.
  - destruct (Nat.eqb_spec z x) as [->|Hne]; simpl.
    + destruct (Nat.eqb_spec x y); auto.
    + destruct (Nat.eqb_spec z y) as [->|Hne']; simpl; auto.
      destruct (Nat.eqb_spec x y); [congruence|auto].
Qed.

Lemma dict_set_keys_in d x v : In x (map fst d) -> map fst (dict_set d x v) = map fst d.
Proof.
  induction d as [|[y w] d IH]; simpl; [tauto|]. intros H.
  destruct (Nat.eqb_spec y x) as [->|Hne]; simpl; auto.
  f_equal. apply IH. destruct H; congruence.
Qed.

Lemma dict_set_fresh d x v : ~ In x (map fst d) -> dict_set d x v = d ++ [(x, v)].
Proof.
  induction d as [|[y w] d IH]; simpl; intros H; auto.
  destruct (Nat.eqb_spec y x) as [->|Hne]; [tauto|]. f_equal. apply IH. tauto.
Qed.

(** the dictionary [values_workflow] *)
Lemma bindings_dict values : forall inputs wb d vs,
  List.length inputs = List.length wb -> NoDup (map fst d ++ wb) ->
  Forall2 (fun x v => dict_get values x = Ok v) inputs vs ->
  foldM (fun d xy => let* v := dict_get values (fst xy) in Ok (dict_set d (snd xy) v))
        (combine inputs wb) d = Ok (d ++ combine wb vs).
Proof.
  induction inputs as [|x inputs IH]; intros [|y wb] d vs Hlen Hnd F; try discriminate;
    inversion F as [|? v ? vs' E F']; subst; simpl.
  - rewrite app_nil_r. auto.
  - rewrite E. simpl. rewrite dict_set_fresh.
    + rewrite (IH wb (d ++ [(y, v)]) vs'); auto.
      * rewrite <- app_assoc. auto.
      * rewrite map_app, <- app_assoc. auto.
    + intros Hin. apply NoDup_remove_2 in Hnd. apply Hnd. apply in_or_app. auto.
Qed.

Lemma combine_set : forall wb vs k x (element : val), NoDup wb -> List.length vs = List.length wb ->
  nth_error wb k = Some x ->
  dict_set (combine wb vs) x element
  = combine wb (map (fun iv => if Nat.eqb (fst iv) k then element else snd iv)
                    (combine (seq 0 (List.length vs)) vs)).
Proof.
  intros wb vs k x element Hnd Hlen Hk.
  assert (H : forall o, dict_set (combine wb vs) x element
    = combine wb (map (fun iv => if Nat.eqb (fst iv) (o + k) then element else snd iv)
                    (combine (seq o (List.length vs)) vs))).
  2:{ exact (H 0). }
  revert vs k x Hnd Hlen Hk. induction wb as [|y wb IH]; intros [|v vs] k x Hnd Hlen Hk o;
    try discriminate; [destruct k; discriminate|].
  inversion Hnd as [|? ? Hni Hnd']; subst. simpl in Hlen.
  destruct k as [|k]; simpl in *.
  - injection Hk as ->. rewrite !Nat.eqb_refl, Nat.add_0_r, Nat.eqb_refl. f_equal. f_equal.
    assert (G : forall p, o < p ->
      map (fun iv : nat * val => if fst iv =? o then element else snd iv)
        (combine (seq p (List.length vs)) vs) = vs).
    { clear. induction vs as [|v vs IH]; intros p Hp; simpl; auto.
      destruct (Nat.eqb_spec p o); [lia|]. f_equal. apply IH. lia. }
    rewrite G; auto.
  - destruct (Nat.eqb_spec y x) as [->|Hne].
    + exfalso. apply Hni. eapply nth_error_In. eauto.
    + destruct (Nat.eqb_spec o (o + S k)) as [|_]; [lia|]. f_equal.
      rewrite (IH vs k x Hnd' ltac:(lia) Hk (S o)).
      replace (o + S k) with (S o + k) by lia. auto.
Qed.

Lemma index_nat : forall wb k x, NoDup wb -> nth_error wb k = Some x -> index_of Nat.eqb x wb = Some k.
Proof.
  induction wb as [|y wb IH]; intros [|k] x Hnd Hk; simpl in *; try discriminate;
    inversion Hnd as [|? ? Hni Hnd']; subst.
  - injection Hk as ->. rewrite Nat.eqb_refl. auto.
  - destruct (Nat.eqb_spec x y) as [->|_].
    + exfalso. apply Hni. eapply nth_error_In. eauto.
    + rewrite (IH k x); auto.
Qed.

Lemma arguments_combine : forall wb (vs : list val), NoDup wb -> List.length vs = List.length wb ->
  mapM (fun kv : nat * val => let* i := of_option ValueError (index_of Nat.eqb (fst kv) wb) in
                              Ok (i, snd kv)) (combine wb vs)
  = Ok (combine (seq 0 (List.length vs)) vs).
Proof.
  intros wb vs Hnd Hlen.
  assert (H : forall pre post ws, wb = pre ++ post -> List.length ws = List.length post ->
    mapM (fun kv : nat * val => let* i := of_option ValueError (index_of Nat.eqb (fst kv) wb) in
                              Ok (i, snd kv)) (combine post ws)
    = Ok (combine (seq (List.length pre) (List.length ws)) ws)).
  2:{ exact (H [] wb vs eq_refl Hlen). }
  intros pre post. revert pre. induction post as [|y post IH]; intros pre ws Hw Hl;
    destruct ws as [|w ws]; try discriminate; simpl; auto.
  rewrite (index_nat wb (List.length pre) y); auto.
  - simpl. specialize (IH (pre ++ [y]) ws). rewrite app_length in IH. simpl in IH.
    rewrite Nat.add_1_r in IH. rewrite IH; auto. rewrite <- app_assoc. auto.
  - rewrite Hw, nth_error_app2, Nat.sub_diag by auto. auto.
Qed.

Lemma seq_split_map k element : forall (vs : list val) o,
  combine (seq o (List.length vs))
    (map (fun iv : nat * val => if Nat.eqb (fst iv) k then element else snd iv)
         (combine (seq o (List.length vs)) vs))
  = map (fun iv => (fst iv, if Nat.eqb (fst iv) k then element else snd iv))
        (combine (seq o (List.length vs)) vs).
Proof. induction vs as [|v vs IH]; intros o; simpl; auto. rewrite IH. auto. Qed.

Definition put k element (vs : list val) : list val :=
  map (fun iv : nat * val => if Nat.eqb (fst iv) k then element else snd iv)
      (combine (seq 0 (List.length vs)) vs).

Lemma put_length k element vs : List.length (put k element vs) = List.length vs.
Proof. unfold put. rewrite map_length, combine_length, seq_length. apply Nat.min_id. Qed.

Lemma put_put k a b vs : put k b (put k a vs) = put k b vs.
Proof.
  unfold put. rewrite map_length, combine_length, seq_length, Nat.min_id.
  generalize 0 as o. induction vs as [|v vs IH]; intros o; simpl; auto.
  rewrite IH. destruct (o =? k); auto.
Qed.

Lemma evaluate_combine run wb vs k element x : NoDup wb -> List.length vs = List.length wb ->
  nth_error wb k = Some x ->
  workflow_block_evaluate run wb (dict_set (combine wb vs) x element)
  = bind (run (arguments_for k element vs)) (fun o => Ok [o]).
Proof.
  intros Hnd Hlen Hk. unfold workflow_block_evaluate.
  rewrite (combine_set wb vs k x element Hnd Hlen Hk). fold (put k element vs).
  rewrite arguments_combine; auto; [|rewrite put_length; auto].
  unfold bind at 1. rewrite put_length. unfold put. rewrite seq_split_map. auto.
Qed.

Lemma arguments_put k a b vs : arguments_for k b (put k a vs) = arguments_for k b vs.
Proof.
  unfold arguments_for. rewrite put_length.
  rewrite <- (seq_split_map k b vs 0).
  rewrite <- (put_length k a vs) at 1. rewrite <- (seq_split_map k b (put k a vs) 0).
  f_equal. 
  - rewrite put_length; auto.
  - exact (put_put k a b vs).
Qed.

Lemma foreach_loop_spec run wb k x : NoDup wb -> nth_error wb k = Some x ->
  forall els vs, List.length vs = List.length wb ->
  foreach_loop run wb x els (combine wb vs)
  = mapM (fun e => run (arguments_for k e vs)) els.
Proof.
  intros Hnd Hk. induction els as [|e els IH]; intros vs Hlen; simpl; auto.
  rewrite (evaluate_combine run wb vs k e x Hnd Hlen Hk).
  destruct (run (arguments_for k e vs)) as [o|err]; simpl; auto.
  rewrite (combine_set wb vs k x e Hnd Hlen Hk). fold (put k e vs).
  rewrite IH by (rewrite put_length; auto).
  rewrite (mapM_ext _ (fun e0 => run (arguments_for k e0 vs))); auto.
  intros e' _. rewrite arguments_put. auto.
Qed.

Lemma mapM_first_error {A B} (f : A -> res B) l e : mapM f l = Err e <->
  exists l1 x l2, l = l1 ++ x :: l2 /\ f x = Err e /\ forall y, In y l1 -> exists b, f y = Ok b.
Proof.
  induction l as [|x l IH]; simpl.
  - split; [discriminate|]. intros (l1 & y & l2 & E & _). destruct l1; discriminate.
  - split.
    + destruct (f x) as [b|e'] eqn:E; simpl.
      * destruct (mapM f l) as [bs|e''] eqn:E'; [discriminate|]. simpl. intros [= ->].
        destruct (proj1 IH eq_refl) as (l1 & y & l2 & -> & Hy & H).
        exists (x :: l1), y, l2. repeat split; auto.
        intros z [->|Hz]; eauto.
      * intros [= ->]. exists [], x, l. repeat split; auto. intros y [].
    + intros ([|y l1] & z & l2 & E & Hz & H); injection E as -> ->.
      * rewrite Hz. auto.
      * destruct (H y (or_introl eq_refl)) as [b ->]. simpl.
        rewrite (proj2 IH); auto. exists l1, z, l2. repeat split; auto.
        intros w Hw. apply H. simpl; auto.
Qed.

(** ** Strings *)

Lemma str_join_spec sep strings s : str_join sep (map VStr strings) = Ok s <-> joined sep strings s.
Proof.
  revert s. induction strings as [|x strings IH]; intros s; simpl.
  - split; [intros [= <-]; constructor|]. inversion 1; auto.
  - destruct strings as [|y strings].
    + simpl. split; [intros [= <-]; constructor|]. inversion 1; subst; auto; congruence.
    + cbn [map]. destruct (str_join sep (VStr y :: map VStr strings)) as [t|e] eqn:E;
        cbn [map] in IH; rewrite E in IH; simpl.
      * split.
        -- intros [= <-]. constructor; [discriminate|]. apply IH. auto.
        -- inversion 1 as [| |? ? t' Hne J]; subst. apply IH in J. congruence.
      * split; [discriminate|]. inversion 1 as [| |? ? t' Hne J]; subst. apply IH in J. congruence.
Qed.

Lemma str_join_total sep strings : exists s, str_join sep (map VStr strings) = Ok s.
Proof.
  induction strings as [|x strings [s IH]]; simpl; [eauto|].
  destruct strings; simpl in *; eauto. rewrite IH. simpl. eauto.
Qed.

Lemma str_join_type sep vs v : In v vs -> type_of v <> TStr -> str_join sep vs = Err TypeError.
Proof.
  induction vs as [|w vs IH]; simpl; [tauto|]. intros [->|Hin] Ht.
  - destruct v; simpl in *; congruence.
  - destruct w; auto. destruct vs as [|u vs]; [destruct Hin|].
    rewrite IH; auto.
Qed.

(** ** Named arguments *)

Lemma named_set_fresh d x v : ~ In x (map fst d) -> named_set d x v = d ++ [(x, v)].
Proof.
  induction d as [|[y w] d IH]; simpl; intros H; auto.
  destruct (String.eqb_spec y x) as [->|Hne]; [tauto|]. f_equal. apply IH. tauto.
Qed.

Lemma given_names values inputs args : given values inputs args ->
  forall n, In n (map fst args) -> In n (map snd inputs).
Proof. induction 1; simpl; intros m Hm; [tauto| |]; firstorder. Qed.

Lemma given_total values inputs : is_dict values -> exists args, given values inputs args.
Proof.
  intros Hd. induction inputs as [|[x n] inputs [args IH]]; [exists []; constructor|].
  destruct (dict_get values x) as [v|e] eqn:E.
  - exists ((n, v) :: args). constructor; auto. apply dict_get_in; auto.
  - exists args. apply g_none; auto. apply dict_get_missing. rewrite E.
    f_equal. eapply dict_get_err; eauto.
Qed.

Lemma method_arguments_given values : is_dict values -> forall inputs args,
  NoDup (map snd inputs) -> given values inputs args -> method_arguments inputs values = args.
Proof.
  intros Hd inputs args Hnd G. unfold method_arguments.
  assert (H : forall d, (forall n, In n (map snd inputs) -> ~ In n (map fst d)) ->
    fold_left (fun d i => match dict_get values (fst i) with
                          | Ok v => named_set d (snd i) v | Err _ => d end) inputs d = d ++ args).
  2:{ apply (H []). simpl. auto. }
  revert Hnd. induction G as [|x n v inputs args Hin G IH|x n inputs args Hni G IH];
    simpl; intros Hnd d Hd'.
  - rewrite app_nil_r. auto.
  - inversion Hnd as [|? ? Hn Hnd']; subst.
    apply (dict_get_in values x v Hd) in Hin. rewrite Hin.
    rewrite named_set_fresh by (apply Hd'; auto). rewrite IH; auto.
    + rewrite <- app_assoc. auto.
    + intros m Hm. rewrite map_app, in_app_iff. simpl. intros [H|[H|[]]].
      * apply (Hd' m); auto.
      * subst. auto.
  - inversion Hnd as [|? ? Hn Hnd']; subst.
    apply dict_get_missing in Hni. rewrite Hni. apply IH; auto.
Qed.

Lemma instantiate_arguments_bound values : is_dict values -> forall inputs vs,
  NoDup (map snd inputs) -> bound values (map fst inputs) vs ->
  instantiate_arguments inputs values = Ok (combine (map snd inputs) vs).
Proof.
  intros Hd inputs vs Hnd B. unfold instantiate_arguments.
  assert (H : forall d, (forall n, In n (map snd inputs) -> ~ In n (map fst d)) ->
    foldM (fun d i => let* v := dict_get values (fst i) in Ok (named_set d (snd i) v)) inputs d
    = Ok (d ++ combine (map snd inputs) vs)).
  2:{ apply (H []). simpl. auto. }
  revert vs B Hnd. induction inputs as [|[x n] inputs IH]; intros vs B Hnd d Hd';
    inversion B as [|? v ? vs' Hin B']; subst; simpl.
  - rewrite app_nil_r. auto.
  - simpl in Hnd. inversion Hnd as [|? ? Hn Hnd']; subst.
    apply (dict_get_in values x v Hd) in Hin. rewrite Hin. simpl.
    rewrite named_set_fresh by (apply Hd'; simpl; auto). rewrite (IH vs'); auto.
    + rewrite <- app_assoc. auto.
    + intros m Hm. rewrite map_app, in_app_iff. simpl. intros [H|[H|[]]].
      * apply (Hd' m); simpl; auto.
      * subst. auto.
Qed.

Lemma instantiate_arguments_missing values inputs x : In x (map fst inputs) ->
  ~ In x (map fst values) -> instantiate_arguments inputs values = Err KeyError.
Proof.
  unfold instantiate_arguments. generalize (@nil (string * val)) as d.
  induction inputs as [|[y n] inputs IH]; simpl; intros d Hin Hm; [tauto|].
  destruct (dict_get values y) as [v|e] eqn:E; simpl.
  - destruct Hin as [->|Hin]; auto.
    apply dict_get_missing in Hm. congruence.
  - apply dict_get_err in E. congruence.
Qed.

(** Proofs about workbooks: dictionaries, words, cells. *)
From Coq Require Import Ascii String ZArith QArith Bool Arith Lia.
From Verif Require Import Base TableModel TableProofs DataProofs ExcelModel ExcelSpec.
From Coq Require Import List Permutation.
Import ListNotations.
Open Scope list_scope.
Open Scope nat_scope.

(** ** The order of keys *)

Lemma leb_total a b : String.leb a b = false -> String.leb b a = true.
Proof.
  unfold String.leb. rewrite (string_compare_antisym b a). destruct (String.compare a b); simpl; auto; discriminate.
Qed.
Lemma leb_antisym a b : String.leb a b = true -> String.leb b a = true -> a = b.
Proof.
  unfold String.leb. rewrite (string_compare_antisym b a). destruct (String.compare a b) eqn:E; simpl; try discriminate.
  intros _ _. apply string_compare_eq. auto.
Qed.
Lemma leb_trans a b c : String.leb a b = true -> String.leb b c = true -> String.leb a c = true.
Proof.
  unfold String.leb. destruct (String.compare a b) eqn:E1; try discriminate; destruct (String.compare b c) eqn:E2; try discriminate; intros _ _.
  - apply string_compare_eq in E1. subst. rewrite E2. auto.
  - apply string_compare_eq in E1. subst. rewrite E2. auto.
  - apply string_compare_eq in E2. subst. rewrite E1. auto.
  - rewrite (string_compare_trans _ _ _ E1 E2). auto.
Qed.

(** ** Sorted dictionaries *)

Section Sorting.
Context {A : Type}.
Implicit Types l : list (string * A).

Lemma insert_perm e l : Permutation (insert_key e l) (e :: l).
Proof.
  induction l as [|f l IH]; simpl; auto. destruct (String.leb (fst e) (fst f)); auto.
  rewrite IH. apply perm_swap.
Qed.
Lemma sort_perm l : Permutation (sort_keys l) l.
Proof. induction l as [|e l IH]; simpl; auto. unfold sort_keys in *. rewrite insert_perm, IH. auto. Qed.

Lemma insert_comm e f l : fst e <> fst f -> insert_key e (insert_key f l) = insert_key f (insert_key e l).
Proof.
  intros N. assert (X : String.leb (fst e) (fst f) = negb (String.leb (fst f) (fst e))).
  { destruct (String.leb (fst e) (fst f)) eqn:E, (String.leb (fst f) (fst e)) eqn:F; auto.
    - exfalso. apply N, leb_antisym; auto.
    - apply leb_total in E. congruence. }
  induction l as [|g l IH]; simpl.
  - rewrite X. destruct (String.leb (fst f) (fst e)); auto.
  - destruct (String.leb (fst f) (fst g)) eqn:F, (String.leb (fst e) (fst g)) eqn:E; simpl; rewrite ?X, ?E, ?F; auto.
    + destruct (String.leb (fst f) (fst e)); auto.
    + destruct (String.leb (fst f) (fst e)) eqn:Y; simpl; rewrite ?E; auto. simpl in X.
      rewrite (leb_trans _ _ _ X F) in E. discriminate.
    + destruct (String.leb (fst f) (fst e)) eqn:Y; simpl; rewrite ?F; auto.
      rewrite (leb_trans _ _ _ Y E) in F. discriminate.
    + rewrite IH. auto.
Qed.

Lemma sort_permutation l l' : Permutation l l' -> NoDup (map fst l) -> sort_keys l = sort_keys l'.
Proof.
  induction 1 as [|x l l' P IH|x y l|l l' l'' P IH P' IH']; intros N; auto.
  - simpl. inversion N; subst. unfold sort_keys in *. simpl. rewrite IH; auto.
  - unfold sort_keys. simpl. apply insert_comm. simpl in N. inversion N as [|? ? N1 N2]. subst. simpl in N1. intros E. apply N1. auto.
  - rewrite IH by auto. apply IH'. apply Permutation_NoDup with (map fst l); auto. apply Permutation_map. auto.
Qed.

Lemma get_in k x l : get k l = Some x -> In (k, x) l.
Proof.
  induction l as [|[k' x'] l IH]; simpl; [discriminate|]. destruct (String.eqb_spec k' k) as [->|]; auto.
  intros E. injection E as ->. auto.
Qed.
Lemma in_get k x l : NoDup (map fst l) -> In (k, x) l -> get k l = Some x.
Proof.
  induction l as [|[k' x'] l IH]; simpl; intros N H; [tauto|]. inversion N as [|? ? N1 N2]. subst.
  destruct H as [E|H].
  - injection E as -> ->. rewrite String.eqb_refl. auto.
  - destruct (String.eqb_spec k' k) as [->|]; auto. exfalso. apply N1. apply (in_map fst _ _ H).
Qed.
Lemma get_none_iff k l : get k l = None <-> ~ In k (map fst l).
Proof.
  induction l as [|[k' x'] l IH]; simpl; [tauto|]. destruct (String.eqb_spec k' k) as [->|]; [split; [discriminate|tauto]|].
  rewrite IH. tauto.
Qed.
Lemma get_some_key k l : In k (map fst l) -> exists x, get k l = Some x.
Proof. intros H. destruct (get k l) eqn:E; eauto. apply get_none_iff in E. tauto. Qed.

Lemma get_put k x l k' : get k' (put k x l) = if String.eqb k k' then Some x else get k' l.
Proof.
  induction l as [|[k1 x1] l IH]; simpl; auto. destruct (String.eqb_spec k1 k) as [->|N]; simpl.
  - destruct (String.eqb k k'); auto.
  - rewrite IH. destruct (String.eqb_spec k1 k') as [->|]; auto. destruct (String.eqb_spec k k'); congruence.
Qed.

Lemma put_keys k x l : In k (map fst l) -> map fst (put k x l) = map fst l.
Proof.
  induction l as [|[k1 x1] l IH]; simpl; [tauto|]. destruct (String.eqb_spec k1 k) as [->|N]; simpl; auto.
  intros [E|H]; [congruence|]. rewrite IH; auto.
Qed.

(** two dictionaries with the same values have the same sorted items *)
Lemma sort_same l l' : NoDup (map fst l) -> NoDup (map fst l') -> (forall k, get k l = get k l') ->
  sort_keys l = sort_keys l'.
Proof.
  intros N N' H. apply sort_permutation; auto. apply NoDup_Permutation.
  - eapply NoDup_map_inv; eauto.
  - eapply NoDup_map_inv; eauto.
  - intros [k x]. split; intros I.
    + apply get_in. rewrite <- H. apply in_get; auto.
    + apply get_in. rewrite H. apply in_get; auto.
Qed.
End Sorting.

Lemma sort_map {A B} (f : A -> B) (l : list (string * A)) :
  sort_keys (map (fun kx => (fst kx, f (snd kx))) l) = map (fun kx => (fst kx, f (snd kx))) (sort_keys l).
Proof.
  assert (I : forall e l, insert_key (fst e, f (snd e)) (map (fun kx => (fst kx, f (snd kx))) l)
      = map (fun kx => (fst kx, f (snd kx))) (insert_key e l)).
  { intros e m. induction m as [|g m IH]; simpl; auto. destruct (String.leb (fst e) (fst g)); simpl; auto. rewrite IH. auto. }
  unfold sort_keys. induction l as [|e l IH]; simpl; auto. rewrite IH, <- I. auto.
Qed.

Lemma filter_map_keys {A B} (f : A -> B) (g : string -> bool) (l : list (string * A)) :
  filter (fun kx => g (fst kx)) (map (fun kx => (fst kx, f (snd kx))) l)
  = map (fun kx => (fst kx, f (snd kx))) (filter (fun kx => g (fst kx)) l).
Proof. induction l as [|[k x] l IH]; simpl; auto. destruct (g k); simpl; rewrite IH; auto. Qed.

Lemma get_map {A B} (f : A -> B) k (l : list (string * A)) :
  get k (map (fun kx => (fst kx, f (snd kx))) l) = option_map f (get k l).
Proof. induction l as [|[k' x] l IH]; simpl; auto. destruct (String.eqb k' k); auto. Qed.

Lemma map_keys {A B} (f : A -> B) (l : list (string * A)) : map fst (map (fun kx => (fst kx, f (snd kx))) l) = map fst l.
Proof. rewrite map_map. apply map_ext. auto. Qed.

(** the header of a class only depends on the names of the attributes *)
Lemma public_prefix k : public k = negb (String.prefix "_" k).
Proof.
  destruct k as [|ch k]; [reflexivity|]. cbn [String.prefix]. destruct (ascii_dec "_" ch) as [<-|N].
  - destruct k; reflexivity.
  - destruct ch as [[] [] [] [] [] [] [] []]; try reflexivity. exfalso; apply N; reflexivity.
Qed.
Lemma public_iff k : public k = true <-> forall k', k <> String "_" k'.
Proof.
  split.
  - intros H k' ->. discriminate.
  - intros H. destruct k as [|ch k]; [reflexivity|]. destruct (ascii_dec "_" ch) as [<-|N]; [exfalso; apply (H k); reflexivity|].
    destruct ch as [[] [] [] [] [] [] [] []]; try reflexivity. exfalso; apply N; reflexivity.
Qed.

Lemma columns_perm a : Permutation (columns a) (filter (fun kx => public (fst kx) && negb (String.eqb (fst kx) "name")) a).
Proof. apply sort_perm. Qed.

Lemma perm_filter {A} (f : A -> bool) l l' : Permutation l l' -> Permutation (filter f l) (filter f l').
Proof.
  induction 1 as [|x l l' P IH|x y l|l l' l'' P IH P' IH']; simpl; auto.
  - destruct (f x); auto.
  - destruct (f x), (f y); auto. apply perm_swap.
  - transitivity (filter f l'); auto.
Qed.

Lemma NoDup_map_filter {A B} (f : A -> B) g l : NoDup (map f l) -> NoDup (map f (filter g l)).
Proof.
  induction l as [|x l IH]; simpl; auto. intros N. inversion N as [|? ? N1 N2]. subst.
  destruct (g x); auto. simpl. constructor; auto. intros H. apply N1.
  apply in_map_iff in H. destruct H as (y & E & H). apply filter_In in H. apply in_map_iff. exists y. tauto.
Qed.

Definition forget (_ : value) : unit := tt.

Lemma columns_header a b : Permutation (map fst a) (map fst b) -> NoDup (map fst a) ->
  map fst (columns a) = map fst (columns b).
Proof.
  intros P N. set (g := fun k => public k && negb (String.eqb k "name")).
  set (u := fun l : list (string * value) => map (fun kx => (fst kx, forget (snd kx))) l).
  assert (E : forall a, map fst (columns a) = map fst (sort_keys (filter (fun kx => g (fst kx)) (u a)))).
  { intros c. unfold u. rewrite (filter_map_keys forget g), sort_map, map_keys. auto. }
  rewrite !E. f_equal. apply sort_permutation.
  - apply perm_filter. unfold u.
    assert (U : forall l : list (string * value), map (fun kx => (fst kx, forget (snd kx))) l = map (fun k => (k, tt)) (map fst l)).
    { intros l. rewrite map_map. auto. }
    rewrite !U. apply Permutation_map. auto.
  - apply NoDup_map_filter. unfold u. rewrite map_keys. auto.
Qed.

(** ** Words *)

Lemma substring_at (w : string) : forall a b, String.substring (String.length a) (String.length w) (a ++ w ++ b) = w.
Proof.
  intros a b. induction a as [|ch a IH]; simpl; auto. induction w as [|ch w IH]; simpl; [destruct b; auto|]. rewrite IH. auto.
Qed.

Lemma substring_within w : forall n s, w <> ""%string -> String.substring n (String.length w) s = w -> within w s.
Proof.
  assert (P : forall w s, String.substring 0 (String.length w) s = w -> exists b, s = (w ++ b)%string).
  { intros u. induction u as [|ch u IH]; intros s E; [exists s; auto|].
    destruct s as [|ch' s]; simpl in E; [discriminate|]. injection E as -> E.
    destruct (IH s E) as [b ->]. exists b. auto. }
  induction n as [|n IH]; intros s N E.
  - destruct (P w s E) as [b ->]. exists ""%string, b. auto.
  - destruct s as [|ch s]; simpl in E; [congruence|]. destruct (IH s N E) as (a & b & ->).
    exists (String ch a), b. auto.
Qed.

Lemma has_word_within w s : w <> ""%string -> (has_word w s = true <-> within w s).
Proof.
  intros N. unfold has_word. destruct (String.index 0 w s) as [n|] eqn:E; split; intros H; auto; try discriminate.
  - apply index_correct1 in E. eapply substring_within; eauto.
  - exfalso. destruct H as (a & b & ->).
    apply (index_correct3 0 (String.length a) w (a ++ w ++ b) E N); [lia|]. apply substring_at.
Qed.

Lemma no_word w s : w <> ""%string -> ~ within w s -> has_word w s = false.
Proof. intros N H. destruct (has_word w s) eqn:E; auto. apply has_word_within in E; tauto. Qed.

Lemma within_count ch w s : within w s -> count ch w <= count ch s.
Proof. intros (a & b & ->). rewrite !count_app. lia. Qed.

Lemma list_words n :
  has_word "Dict" ("List of " ++ nat_str n ++ " items") = false
  /\ existsb (fun w => has_word w ("List of " ++ nat_str n ++ " items")) ["Dict"; "List"; "Set"; "Tuple"]%string = true.
Proof.
  split.
  - apply no_word; [discriminate|]. intros H. apply (within_count "D") in H. rewrite !count_app, count_nat_str in H.
    + simpl in H. lia.
    + intros d Hd E. subst d. simpl in Hd. intuition discriminate.
  - apply existsb_exists. exists "List"%string. split; [simpl; auto|]. apply has_word_within; [discriminate|].
    exists ""%string, (" of " ++ nat_str n ++ " items")%string. auto.
Qed.

(** ** Cells *)

Lemma identifier_char s ch : identifier s -> word_char ch = false -> forall a b, s <> (a ++ String ch b)%string.
Proof.
  intros [_ W] H a. revert s W. induction a as [|c' a IH]; intros s W b E; subst s; simpl in W; apply andb_true_iff in W; destruct W as [W1 W2].
  - congruence.
  - eapply IH; [exact W2|reflexivity].
Qed.

Lemma identifier_storable s : identifier s -> storable s.
Proof.
  intros I. split; [apply I|]. intros s' ->. exfalso. apply (identifier_char _ "=" I eq_refl ""%string s'). auto.
Qed.

Lemma stored_text s : storable s -> stored_scalar (CText s) = CText s.
Proof.
  intros [N F]. destruct s as [|ch s]; [congruence|]. simpl.
  destruct (Ascii.ascii_dec ch "=") as [->|D].
  - rewrite (F s eq_refl). auto.
  - destruct ch as [[] [] [] [] [] [] [] []]; auto; destruct s; auto; congruence.
Qed.

Lemma identifier_title c c' : identifier c -> ("Object " ++ c')%string <> c.
Proof.
  intros I E. apply (identifier_char _ " " I eq_refl "Object"%string c'). rewrite <- E. auto.
Qed.

(** Lemmas on diff. *)
From Coq Require Import ZArith QArith Qabs Lia Bool String Ascii Permutation List.
From Verif Require Import Base BaseProofs PyValue DataModel DataSpec DataProofs.
Import ListNotations.
Open Scope string_scope.
Open Scope list_scope.

(** ** Sums of differences *)
Definition diffs {A} (f : A -> res difference) (l : list A) (acc : difference) : res difference :=
  foldM (fun acc x => let* dk := f x in Ok (add_diff acc dk)) l acc.

Lemma diffs_ok {A} (f : A -> res difference) l : forall acc r, diffs f l acc = Ok r ->
  exists ds, Forall2 (fun x d => f x = Ok d) l ds /\ r = fold_left add_diff ds acc.
Proof.
  unfold diffs. induction l as [|x l IH]; intros acc r H; simpl in H.
  - inversion H; subst. exists []. split; auto.
  - destruct (f x) as [d|e] eqn:E; simpl in H; [|discriminate]. destruct (IH _ _ H) as [ds [F ->]].
    exists (d :: ds). split; auto.
Qed.
Lemma diffs_err {A} (f : A -> res difference) l : forall acc e, diffs f l acc = Err e -> exists x, In x l /\ f x = Err e.
Proof.
  unfold diffs. induction l as [|x l IH]; intros acc e H; simpl in H; [discriminate|].
  destruct (f x) as [d|e'] eqn:E; simpl in H.
  - destruct (IH _ _ H) as [y [I Q]]. exists y. simpl. auto.
  - exists x. simpl. split; auto. congruence.
Qed.
Lemma diffs_all {A} (f : A -> res difference) l : (forall x, In x l -> f x = Ok no_diff) -> diffs f l no_diff = Ok no_diff.
Proof.
  unfold diffs. intros H. induction l as [|x l IH]; simpl; auto. rewrite (H x) by (simpl; auto). simpl.
  apply IH. intros. apply H. simpl; auto.
Qed.

Lemma sum_values ds : forall acc t, In t (different_values (fold_left add_diff ds acc)) <->
  In t (different_values acc) \/ exists d, In d ds /\ In t (different_values d).
Proof.
  induction ds as [|d ds IH]; intros acc t; simpl.
  - split; auto. intros [H|[d [[] _]]]; auto.
  - rewrite IH. simpl. rewrite in_app_iff. split.
    + intros [[H|H]|[d' [I H]]]; eauto.
    + intros [H|[d' [[<-|I] H]]]; eauto.
Qed.
Lemma sum_missing ds : forall acc t, In t (missing_attributes (fold_left add_diff ds acc)) <->
  In t (missing_attributes acc) \/ exists d, In d ds /\ In t (missing_attributes d).
Proof.
  induction ds as [|d ds IH]; intros acc t; simpl.
  - split; auto. intros [H|[d [[] _]]]; auto.
  - rewrite IH. simpl. rewrite in_app_iff. split.
    + intros [[H|H]|[d' [I H]]]; eauto.
    + intros [H|[d' [[<-|I] H]]]; eauto.
Qed.
Lemma sum_types ds : forall acc t, In t (invalid_types (fold_left add_diff ds acc)) <->
  In t (invalid_types acc) \/ exists d, In d ds /\ In t (invalid_types d).
Proof.
  induction ds as [|d ds IH]; intros acc t; simpl.
  - split; auto. intros [H|[d [[] _]]]; auto.
  - rewrite IH. simpl. rewrite in_app_iff. split.
    + intros [[H|H]|[d' [I H]]]; eauto.
    + intros [H|[d' [[<-|I] H]]]; eauto.
Qed.

Lemma is_empty_eq d : is_empty d = true -> d = no_diff.
Proof. destruct d as [[|] [|] [|]]; simpl; intros H; try discriminate. reflexivity. Qed.

Lemma nil_no_in {A} (l : list A) : (forall x, ~ In x l) -> l = [].
Proof. destruct l; auto. intros H. exfalso. apply (H a). simpl; auto. Qed.

Lemma sum_empty ds d : fold_left add_diff ds no_diff = no_diff -> In d ds -> d = no_diff.
Proof.
  intros E I. destruct d as [dv ma it]. unfold no_diff. f_equal; apply nil_no_in; intros t J.
  - assert (K := proj2 (sum_values ds no_diff t)). rewrite E in K. apply K. right. eauto.
  - assert (K := proj2 (sum_missing ds no_diff t)). rewrite E in K. apply K. right. eauto.
  - assert (K := proj2 (sum_types ds no_diff t)). rewrite E in K. apply K. right. eauto.
Qed.

Lemma Forall2_in_l {A B} (P : A -> B -> Prop) l m x : Forall2 P l m -> In x l -> exists y, In y m /\ P x y.
Proof. intros F. induction F; intros []; subst; simpl; [eauto|]. destruct (IHF H0) as [z [? ?]]; eauto. Qed.
Lemma Forall2_in_r {A B} (P : A -> B -> Prop) l m y : Forall2 P l m -> In y m -> exists x, In x l /\ P x y.
Proof. intros F. induction F; intros []; subst; simpl; [eauto|]. destruct (IHF H0) as [z [? ?]]; eauto. Qed.

Lemma in_enumerate {A} (l : list A) i x n : In (i, x) (combine (seq n (length l)) l) <-> (n <= i /\ nth_error l (i - n) = Some x)%nat.
Proof.
  revert n. induction l as [|y l IH]; intros n; simpl.
  - split; [intros []|]. intros [_ H]. destruct (i - n)%nat; discriminate.
  - rewrite IH. split.
    + intros [E|[L E]].
      * inversion E; subst. split; [lia|]. rewrite Nat.sub_diag. reflexivity.
      * split; [lia|]. replace (i - n)%nat with (S (i - S n)) by lia. auto.
    + intros [L E]. destruct (Nat.eq_dec i n) as [->|D].
      * rewrite Nat.sub_diag in E. simpl in E. inversion E. auto.
      * right. split; [lia|]. replace (i - n)%nat with (S (i - S n)) in E by lia. auto.
Qed.
Lemma nth_combine {A B} (l : list A) : forall (m : list B) i x y,
  nth_error (combine l m) i = Some (x, y) <-> nth_error l i = Some x /\ nth_error m i = Some y.
Proof.
  induction l as [|a l IH]; intros [|b m] [|i] x y; simpl; try (split; [discriminate|intros []; discriminate]).
  - split; [intros E; inversion E; auto|intros [E F]; inversion E; inversion F; auto].
  - apply IH.
Qed.

Section D.
Variable non_serializable non_data_eq : string -> list string.
Variable subclass : string -> string -> bool.
Variable str_key : key -> string.
Variable str_nat : nat -> string.
Notation data_eq := (data_eq non_serializable non_data_eq).
Notation diff_fuel := (diff_fuel non_serializable non_data_eq subclass str_key str_nat).
Notation diff := (diff non_serializable non_data_eq subclass str_key str_nat).
Notation reach := (reach str_key str_nat).
Notation serializable_dict := (serializable_dict non_serializable).

(** One key of a dictionary *)
Definition key_diff (n : nat) (path : string) (swap : bool) (other : list (key * val)) (kv : key * val) : res difference :=
  match lookup (fst kv) other with
  | None => Ok (mkDiff [] [(slash path (str_key (fst kv)), swap)] [])
  | Some x => diff_fuel n (snd kv) x (slash path (str_key (fst kv)))
  end.
Definition dict_diff (n : nat) (path : string) (d1 d2 : list (key * val)) : res difference :=
  if Nat.ltb (length d1) (length d2) then diffs (key_diff n path true d1) d2 no_diff
  else diffs (key_diff n path false d2) d1 no_diff.
Definition seq_diff (n : nat) (path : string) (l1 l2 : list val) : res difference :=
  diffs (fun iv => diff_fuel n (fst (snd iv)) (snd (snd iv)) (slash path (str_nat (fst iv))))
        (combine (seq 0 (length l1)) (combine l1 l2)) no_diff.
Definition nameless (c : string) (d : list (key * val)) :=
  filter (fun kv => negb (key_eqb (fst kv) (KStr "name"))) (serializable_dict c d).

Lemma foldM_ext {A S} (f g : S -> A -> res S) l : (forall s x, f s x = g s x) -> forall s, foldM f l s = foldM g l s.
Proof. intros H. induction l as [|x l IH]; intros s; simpl; auto. rewrite H. destruct (g s x); simpl; auto. Qed.

Lemma diff_fuel_S n v1 v2 path : diff_fuel (S n) v1 v2 path =
  match seq_of v1, seq_of v2 with
  | Some l1, Some l2 =>
    if negb (Nat.eqb (length l1) (length l2)) then Ok (mkDiff [(path, v1, v2)] [] []) else seq_diff n path l1 l2
  | _, _ =>
    if negb (isinstance_of subclass v1 v2) then Ok (mkDiff [] [] [(path, v1, v2)])
    else match v1, v2 with
         | VFloat a, VFloat b =>
           if isclose a b then Ok no_diff
           else Ok (if base_neq v1 v2 then mkDiff [(path, v1, v2)] [] [] else no_diff)
         | VNone, _ | VBool _, _ | VInt _, _ | VStr _, _ =>
           Ok (if base_neq v1 v2 then mkDiff [(path, v1, v2)] [] [] else no_diff)
         | VDict d1, VDict d2 => dict_diff n path d1 d2
         | VObj c1 d1, VObj c2 d2 =>
           if data_eq v1 v2 then Ok no_diff else dict_diff n path (nameless c1 d1) (serializable_dict c2 d2)
         | VClass n1 true, _ => Err TypeError
         | VClass n1 false, VClass n2 _ => if String.eqb n1 n2 then Ok no_diff else Err NotImplementedError
         | _, _ => Err NotImplementedError
         end
  end.
Proof.
  assert (DD : forall d1 d2, foldM (fun acc kv =>
      match lookup (fst kv) (if Nat.ltb (length d1) (length d2) then d1 else d2) with
      | None => Ok (mkDiff (different_values acc)
          (missing_attributes acc ++ [(slash path (str_key (fst kv)), Nat.ltb (length d1) (length d2))]) (invalid_types acc))
      | Some x => let* dk := diff_fuel n (snd kv) x (slash path (str_key (fst kv))) in Ok (add_diff acc dk)
      end) (if Nat.ltb (length d1) (length d2) then d2 else d1) no_diff = dict_diff n path d1 d2).
  { intros d1 d2. unfold dict_diff, diffs. destruct (Nat.ltb (length d1) (length d2)); apply foldM_ext; intros acc kv;
      unfold key_diff; destruct (lookup _ _); auto; simpl; unfold add_diff; simpl; rewrite !app_nil_r; reflexivity. }
  destruct v1, v2; try reflexivity.
  - exact (DD d d0).
  - cbn -[DataModel.data_eq isinstance_of]. fold diff_fuel.
    destruct (negb (isinstance_of subclass (VObj c attrs) (VObj c0 attrs0))); auto.
    destruct (data_eq (VObj c attrs) (VObj c0 attrs0)); auto. apply DD.
Qed.

(** ** Termination *)
Lemma depth_in x l : In x l -> (depth x <= fold_right (fun x n => Nat.max (depth x) n) 0 l)%nat.
Proof. induction l; simpl; intros []; [subst; lia|]. specialize (IHl H). lia. Qed.
Lemma depth_seq v l x : seq_of v = Some l -> In x l -> (depth x < depth v)%nat.
Proof. intros S I. destruct v; simpl in S; inversion S; subst; simpl; pose proof (depth_in x l I); lia. Qed.
Lemma depth_item k x (d : list (key * val)) : In (k, x) d -> (depth x <= fold_right (fun kv n => Nat.max (depth (snd kv)) n) 0 d)%nat.
Proof. induction d as [|[j y] d IH]; simpl; intros []; [inversion H; subst; lia|]. specialize (IH H). lia. Qed.
Lemma depth_dict k x d : In (k, x) d -> (depth x < depth (VDict d))%nat.
Proof. intros I. simpl. pose proof (depth_item k x d I). lia. Qed.
Lemma depth_obj k x c d : In (k, x) d -> (depth x < depth (VObj c d))%nat.
Proof. intros I. simpl. pose proof (depth_item k x d I). lia. Qed.

Lemma seq_diff_item (l1 l2 : list val) i x y : length l1 = length l2 ->
  In (i, (x, y)) (combine (seq 0 (length l1)) (combine l1 l2)) ->
  nth_error l1 i = Some x /\ nth_error l2 i = Some y.
Proof.
  intros L I. replace (length l1) with (length (combine l1 l2)) in I by (rewrite combine_length; lia).
  apply in_enumerate in I. destruct I as [_ I]. rewrite Nat.sub_0_r in I. apply nth_combine in I. auto.
Qed.

Lemma in_serializable c d k x : In (k, x) (serializable_dict c d) -> In (k, x) d.
Proof. intros I. apply filter_In in I. tauto. Qed.
Lemma in_nameless c d k x : In (k, x) (nameless c d) -> In (k, x) d.
Proof. intros I. apply filter_In in I. destruct I as [I _]. eapply in_serializable; eauto. Qed.

Lemma no_out_of_fuel n : forall v1 v2 path, (Nat.min (depth v1) (depth v2) < n)%nat -> diff_fuel n v1 v2 path <> Err OutOfFuel.
Proof.
  induction n as [|n IH]; intros v1 v2 path L; [lia|]. rewrite diff_fuel_S.
  assert (DD : forall d1 d2, (forall k x y, In (k, x) d1 -> In (k, y) d2 -> (Nat.min (depth x) (depth y) < n)%nat) ->
             dict_diff n path d1 d2 <> Err OutOfFuel).
  { intros d1 d2 H E. unfold dict_diff in E. destruct (Nat.ltb (length d1) (length d2)).
    - apply diffs_err in E. destruct E as [[k y] [I E]]. unfold key_diff in E. simpl in E.
      destruct (lookup k d1) as [x|] eqn:Q; [|discriminate]. apply lookup_In in Q.
      apply IH in E; auto. specialize (H k x y Q I). lia.
    - apply diffs_err in E. destruct E as [[k x] [I E]]. unfold key_diff in E. simpl in E.
      destruct (lookup k d2) as [y|] eqn:Q; [|discriminate]. apply lookup_In in Q.
      apply IH in E; auto. eauto. }
  destruct (seq_of v1) as [l1|] eqn:S1; [destruct (seq_of v2) as [l2|] eqn:S2|].
  - destruct (Nat.eqb (length l1) (length l2)) eqn:LE; simpl; [|discriminate]. apply Nat.eqb_eq in LE.
    intros E. apply diffs_err in E. destruct E as [[i [x y]] [I E]]. simpl in E.
    destruct (seq_diff_item l1 l2 i x y LE I) as [N1 N2]. apply nth_error_In in N1, N2.
    apply IH in E; auto. pose proof (depth_seq _ _ _ S1 N1). pose proof (depth_seq _ _ _ S2 N2). lia.
  - destruct (isinstance_of subclass v1 v2); simpl; [|discriminate].
    destruct v1; simpl in S1; try discriminate.
  - destruct (isinstance_of subclass v1 v2); simpl; [|discriminate].
    destruct v1; simpl in S1; try discriminate; destruct v2; try discriminate.
    + destruct (isclose f f0); discriminate.
    + apply DD. intros k x y I J. pose proof (depth_dict _ _ _ I). pose proof (depth_dict _ _ _ J). lia.
    + destruct (data_eq _ _); [discriminate|]. apply DD. intros k x y I J.
      apply in_nameless in I. apply in_serializable in J.
      pose proof (depth_obj _ _ c _ I). pose proof (depth_obj _ _ c0 _ J). lia.
    + destruct dessia; discriminate.
    + destruct dessia; discriminate.
    + destruct dessia; discriminate.
    + destruct dessia; discriminate.
    + destruct dessia; discriminate.
    + destruct dessia; discriminate.
    + destruct dessia; discriminate.
    + destruct dessia; discriminate.
    + destruct dessia; discriminate.
    + destruct dessia; [discriminate|]. destruct (String.eqb name name0); discriminate.
Qed.

(** ** What is reported *)
Notation shows := (shows non_serializable).
Definition absent (first : bool) (a b : val) (k : key) : Prop :=
  if first then shows b k /\ (~ shows a k \/ (k = KStr "name" /\ exists c d, a = VObj c d)) else shows a k /\ ~ shows b k.

Lemma shows_obj c d k : shows (VObj c d) k <-> In k (map fst (serializable_dict c d)).
Proof.
  simpl. split.
  - intros [I H]. apply key_in_item in I. destruct I as [x I]. apply in_key with x. apply filter_In. split; auto.
    apply (proj2 (serializable_iff _ non_data_eq _ _)). cbn [fst]. auto.
  - intros I. apply key_in_item in I. destruct I as [x I]. apply filter_In in I. destruct I as [I H]. split; [eapply in_key; eauto|].
    apply (serializable_iff _ non_data_eq) in H. cbn [fst] in H. auto.
Qed.
Lemma nameless_keys c d k : In k (map fst (nameless c d)) <-> shows (VObj c d) k /\ k <> KStr "name".
Proof.
  rewrite shows_obj. split.
  - intros I. apply key_in_item in I. destruct I as [x I]. apply filter_In in I. destruct I as [I H]. split; [eapply in_key; eauto|].
    cbn [fst] in H. apply negb_true_iff in H. apply key_eqb_neq. auto.
  - intros [I H]. apply key_in_item in I. destruct I as [x I]. apply in_key with x. apply filter_In. split; auto.
    cbn [fst]. apply negb_true_iff. apply key_eqb_neq. auto.
Qed.
Definition good (path : string) (v1 v2 : val) (r : difference) : Prop :=
  (forall p a b, In (p, a, b) (different_values r) -> reach path v1 v2 p a b /\ data_eq a b = false)
  /\ (forall p a b, In (p, a, b) (invalid_types r) -> reach path v1 v2 p a b /\ isinstance_of subclass a b = false)
  /\ (forall p first, In (p, first) (missing_attributes r) ->
        exists q a b k, reach path v1 v2 q a b /\ p = slash q (str_key k) /\ absent first a b k).

Lemma good_none path v1 v2 : good path v1 v2 no_diff.
Proof. unfold good; simpl; repeat split; intros; contradiction. Qed.
Lemma good_value path v1 v2 : data_eq v1 v2 = false -> good path v1 v2 (mkDiff [(path, v1, v2)] [] []).
Proof.
  intros E. unfold good; simpl; repeat split; intros; try contradiction; destruct H as [H|[]]; inversion H; subst; auto. constructor.
Qed.
Lemma good_type path v1 v2 : isinstance_of subclass v1 v2 = false -> good path v1 v2 (mkDiff [] [] [(path, v1, v2)]).
Proof.
  intros E. unfold good; simpl; repeat split; intros; try contradiction; destruct H as [H|[]]; inversion H; subst; auto. constructor.
Qed.

Lemma base_neq_data v1 v2 : isinstance_of subclass v1 v2 = true -> base_neq v1 v2 = true ->
  match v1 with VNone | VBool _ | VInt _ | VStr _ => data_eq v1 v2 = false | _ => True end.
Proof.
  destruct v1; auto; destruct v2; simpl; intros H1 H2; try discriminate; auto;
    apply negb_true_iff in H2; auto.
Qed.

Lemma good_sum path v1 v2 ds : (forall d, In d ds -> good path v1 v2 d) -> good path v1 v2 (fold_left add_diff ds no_diff).
Proof.
  intros H. repeat split.
  - apply sum_values in H0. destruct H0 as [[]|[d [I J]]]. apply (proj1 (H d I)). auto.
  - apply sum_values in H0. destruct H0 as [[]|[d [I J]]]. destruct (proj1 (H d I) _ _ _ J). auto.
  - apply sum_types in H0. destruct H0 as [[]|[d [I J]]]. apply (proj1 (proj2 (H d I))). auto.
  - apply sum_types in H0. destruct H0 as [[]|[d [I J]]]. destruct (proj1 (proj2 (H d I)) _ _ _ J). auto.
  - intros p first I. apply sum_missing in I. destruct I as [[]|[d [I J]]]. apply (proj2 (proj2 (H d I)) _ _ J).
Qed.

Lemma good_step path v1 v2 path' x y d :
  (forall p a b, reach path' x y p a b -> reach path v1 v2 p a b) -> good path' x y d -> good path v1 v2 d.
Proof.
  intros H [G1 [G2 G3]]. repeat split.
  - apply H. apply G1. auto.
  - eapply G1; eauto.
  - apply H. apply G2. auto.
  - eapply G2; eauto.
  - intros p f I. destruct (G3 p f I) as [q [a [b [k [R [E A]]]]]]. exists q, a, b, k. auto.
Qed.

Lemma diff_good n : forall v1 v2 path r, diff_fuel n v1 v2 path = Ok r -> good path v1 v2 r.
Proof.
  induction n as [|n IH]; intros v1 v2 path r H; [discriminate|]. rewrite diff_fuel_S in H.
  assert (DD : forall d1 d2,
     (forall k x y p a b, In (k, x) d1 -> In (k, y) d2 ->
        reach (slash path (str_key k)) x y p a b \/ reach (slash path (str_key k)) y x p a b -> reach path v1 v2 p a b) ->
     (forall k, In k (map fst d2) -> ~ In k (map fst d1) -> absent true v1 v2 k) ->
     (forall k, In k (map fst d1) -> ~ In k (map fst d2) -> absent false v1 v2 k) ->
     dict_diff n path d1 d2 = Ok r -> good path v1 v2 r).
  { intros d1 d2 K A1 A2 E. unfold dict_diff in E.
    destruct (Nat.ltb (length d1) (length d2)); apply diffs_ok in E; destruct E as [ds [F ->]];
      apply good_sum; intros d I; destruct (Forall2_in_r _ _ _ _ F I) as [[k x] [J E]];
      unfold key_diff in E; simpl in E.
    - destruct (lookup k d1) as [y|] eqn:Q.
      + apply lookup_In in Q. apply good_step with (slash path (str_key k)) x y; [|apply IH; auto].
        intros p a b R. apply K with k y x; auto.
      + inversion E; subst. unfold good; simpl; repeat split; intros; try contradiction. destruct H0 as [H0|[]].
        inversion H0; subst. exists path, v1, v2, k. split; [constructor|]. split; auto. apply A1; [eapply in_key; eauto|apply lookup_None; auto].
    - destruct (lookup k d2) as [y|] eqn:Q.
      + apply lookup_In in Q. apply good_step with (slash path (str_key k)) x y; [|apply IH; auto].
        intros p a b R. apply K with k x y; auto.
      + inversion E; subst. unfold good; simpl; repeat split; intros; try contradiction. destruct H0 as [H0|[]].
        inversion H0; subst. exists path, v1, v2, k. split; [constructor|]. split; auto. apply A2; [eapply in_key; eauto|apply lookup_None; auto]. }
  destruct (seq_of v1) as [l1|] eqn:S1; [destruct (seq_of v2) as [l2|] eqn:S2|].
  - destruct (Nat.eqb (length l1) (length l2)) eqn:LE; simpl in H.
    + apply Nat.eqb_eq in LE. apply diffs_ok in H. destruct H as [ds [F ->]]. apply good_sum. intros d I.
      destruct (Forall2_in_r _ _ _ _ F I) as [[i [x y]] [J E]]. simpl in E.
      destruct (seq_diff_item l1 l2 i x y LE J) as [N1 N2].
      apply good_step with (slash path (str_nat i)) x y; [|apply IH; auto].
      intros p a b R. eapply re_seq; eauto.
    + inversion H; subst. apply good_value. destruct (data_eq v1 v2) eqn:E; auto.
      apply (data_eq_seq_iff _ _ v1 v2 l1 S1) in E. destruct E as [m [S2' F]]. apply Forall2_length in F.
      apply Nat.eqb_neq in LE. congruence.
  - destruct (isinstance_of subclass v1 v2) eqn:IO; simpl in H; [|inversion H; subst; apply good_type; auto].
    destruct v1; simpl in S1; try discriminate.
  - destruct (isinstance_of subclass v1 v2) eqn:IO; cbn [negb] in H; [|inversion H; subst; apply good_type; auto].
    pose proof (base_neq_data v1 v2 IO) as BN.
    destruct v1; simpl in S1; try discriminate.
    + destruct (base_neq _ _); inversion H; subst; auto using good_none, good_value.
    + destruct (base_neq _ _); inversion H; subst; auto using good_none, good_value.
    + destruct (base_neq _ _); inversion H; subst; auto using good_none, good_value.
    + destruct v2; try discriminate. destruct (isclose f f0) eqn:C; [inversion H; apply good_none|].
      destruct (base_neq _ _); inversion H; subst; auto using good_none, good_value.
    + destruct (base_neq _ _); inversion H; subst; auto using good_none, good_value.
    + destruct v2; try discriminate. eapply DD; [| | |exact H].
      * intros. eapply re_dict; eauto.
      * simpl. auto.
      * simpl. auto.
    + destruct v2; try discriminate. destruct (data_eq _ _); [inversion H; apply good_none|].
      eapply DD; [| | |exact H].
      * intros. eapply re_obj; eauto using in_nameless, in_serializable.
      * intros k I J. rewrite <- shows_obj in I. rewrite nameless_keys in J. split; auto.
        destruct (key_dec k (KStr "name")); [right; eauto|left; tauto].
      * intros k I J. rewrite <- shows_obj in J. rewrite nameless_keys in I. split; tauto.
    + destruct dessia; [discriminate|]. destruct v2; try discriminate. destruct (String.eqb _ _); inversion H; apply good_none.
Qed.

Lemma string_app_assoc (a b c : string) : ((a ++ b) ++ c = a ++ b ++ c)%string.
Proof. induction a; simpl; congruence. Qed.
Lemma string_app_nil (a : string) : (a ++ "" = a)%string.
Proof. induction a; simpl; congruence. Qed.
Lemma reach_path p v w q a b : reach p v w q a b -> exists s, q = (p ++ s)%string.
Proof.
  revert p v w q a b. fix IH 7. intros p v w q a b R. destruct R as [p v w|p v w l m i x y q a b _ _ _ _ R|p d e k x y q a b _ _ R|p c d c' e k x y q a b _ _ R].
  - exists "". symmetry. apply string_app_nil.
  - destruct (IH _ _ _ _ _ _ R) as [s ->]. eexists. apply string_app_assoc.
  - destruct R as [R|R]; destruct (IH _ _ _ _ _ _ R) as [s ->]; eexists; apply string_app_assoc.
  - destruct R as [R|R]; destruct (IH _ _ _ _ _ _ R) as [s ->]; eexists; apply string_app_assoc.
Qed.

(** ** Empty diffs *)
Lemma diff_same n : forall v path, (depth v < n)%nat -> wf_val v -> nan_free v ->
  everywhere (fun v => forall c, v <> VClass c true) v -> diff_fuel n v v path = Ok no_diff.
Proof.
  induction n as [|n IH]; intros v path L W N C; [lia|]. rewrite diff_fuel_S.
  destruct (seq_of v) as [l|] eqn:S.
  - rewrite Nat.eqb_refl. simpl. apply diffs_all. intros [i [x y]] I. simpl.
    destruct (seq_diff_item l l i x y eq_refl I) as [N1 N2]. rewrite N1 in N2. inversion N2; subst.
    apply nth_error_In in N1. apply IH.
    + pose proof (depth_seq _ _ _ S N1). lia.
    + pose proof (wf_seq _ _ W S) as F. rewrite Forall_forall in F. auto.
    + pose proof (everywhere_seq _ _ _ N S) as F. rewrite Forall_forall in F. apply F. auto.
    + pose proof (everywhere_seq _ _ _ C S) as F. rewrite Forall_forall in F. apply F. auto.
  - destruct v; simpl in S; try discriminate; cbn [isinstance_of negb].
    + reflexivity.
    + simpl. rewrite eqb_reflx. reflexivity.
    + simpl. rewrite Z.eqb_refl. reflexivity.
    + rewrite isclose_refl; auto. apply everywhere_here in N. intros ->. apply N. reflexivity.
    + simpl. rewrite String.eqb_refl. reflexivity.
    + unfold dict_diff. rewrite Nat.ltb_irrefl. apply diffs_all. intros [k x] I. unfold key_diff. simpl.
      apply (lookup_nodup k x d (wf_dict_nodup _ W)) in I as Q. rewrite Q. apply IH.
      * pose proof (depth_dict _ _ _ I). lia.
      * eapply wf_dict_in; eauto.
      * eapply everywhere_dict; eauto.
      * eapply everywhere_dict; eauto.
    + rewrite String.eqb_refl. simpl negb. cbv iota. rewrite data_eq_refl; auto.
    + destruct dessia; [exfalso; apply everywhere_here in C; eapply C; reflexivity|]. rewrite String.eqb_refl. reflexivity.
Qed.

Lemma incl_length {A} (l m : list A) : NoDup l -> incl l m -> (length l <= length m)%nat.
Proof. apply NoDup_incl_length. Qed.

(** keys of the larger dictionary are all found *)
Lemma dict_diff_empty n path d1 d2 : NoDup (map fst d1) -> NoDup (map fst d2) -> dict_diff n path d1 d2 = Ok no_diff ->
  length d1 = length d2
  /\ forall k x, In (k, x) d1 -> exists y, lookup k d2 = Some y /\ diff_fuel n x y (slash path (str_key k)) = Ok no_diff.
Proof.
  intros N1 N2 E. unfold dict_diff in E. destruct (Nat.ltb (length d1) (length d2)) eqn:L.
  - exfalso. apply Nat.ltb_lt in L. apply diffs_ok in E. destruct E as [ds [F E]]. symmetry in E.
    assert (I : incl (map fst d2) (map fst d1)).
    { intros k I. apply key_in_item in I. destruct I as [x I]. destruct (Forall2_in_l _ _ _ _ F I) as [d [J Q]].
      apply (sum_empty _ _ E) in J. subst. unfold key_diff in Q. simpl in Q.
      destruct (lookup k d1) as [y|] eqn:Lk; [|discriminate]. apply lookup_In in Lk. eapply in_key; eauto. }
    apply NoDup_incl_length in I; auto. rewrite !map_length in I. lia.
  - apply Nat.ltb_ge in L. apply diffs_ok in E. destruct E as [ds [F E]]. symmetry in E.
    assert (K : forall k x, In (k, x) d1 -> exists y, lookup k d2 = Some y /\ diff_fuel n x y (slash path (str_key k)) = Ok no_diff).
    { intros k x I. destruct (Forall2_in_l _ _ _ _ F I) as [d [J Q]].
      apply (sum_empty _ _ E) in J. subst. unfold key_diff in Q. simpl in Q.
      destruct (lookup k d2) as [y|] eqn:Lk; [|discriminate]. eauto. }
    split; auto. assert (I : incl (map fst d1) (map fst d2)).
    { intros k I. apply key_in_item in I. destruct I as [x I]. destruct (K k x I) as [y [Lk _]]. apply lookup_In in Lk. eapply in_key; eauto. }
    apply NoDup_incl_length in I; auto. rewrite !map_length in I. lia.
Qed.

Lemma nameless_lookup c d : lookup (KStr "name") (nameless c d) = None.
Proof.
  apply lookup_None. intros I. apply in_map_iff in I. destruct I as [[k x] [E I]]. simpl in E. subst.
  apply filter_In in I. destruct I as [_ I]. simpl in I. discriminate.
Qed.

Lemma empty_diff_data_eq n : forall v1 v2 path, wf_val v1 -> wf_val v2 -> named non_serializable v2 ->
  diff_fuel n v1 v2 path = Ok no_diff -> data_eq v1 v2 = true.
Proof.
  induction n as [|n IH]; intros v1 v2 path W1 W2 N H; [discriminate|]. rewrite diff_fuel_S in H.
  destruct (seq_of v1) as [l1|] eqn:S1; [destruct (seq_of v2) as [l2|] eqn:S2|].
  - destruct (Nat.eqb (length l1) (length l2)) eqn:LE; simpl in H; [|discriminate]. apply Nat.eqb_eq in LE.
    apply diffs_ok in H. destruct H as [ds [F E]]. symmetry in E.
    rewrite (data_eq_seq_iff _ _ v1 v2 l1 S1). exists l2. split; auto. apply Forall2_from_nth; auto.
    intros i x y A B. assert (I : In (i, (x, y)) (combine (seq 0 (length l1)) (combine l1 l2))).
    { replace (length l1) with (length (combine l1 l2)) by (rewrite combine_length; lia).
      apply in_enumerate. split; [lia|]. rewrite Nat.sub_0_r. apply nth_combine. auto. }
    destruct (Forall2_in_l _ _ _ _ F I) as [d [J Q]]. apply (sum_empty _ _ E) in J. subst. simpl in Q.
    apply nth_error_In in A, B. eapply IH; eauto.
    + pose proof (wf_seq _ _ W1 S1) as G. rewrite Forall_forall in G. auto.
    + pose proof (wf_seq _ _ W2 S2) as G. rewrite Forall_forall in G. auto.
    + pose proof (everywhere_seq _ _ _ N S2) as G. rewrite Forall_forall in G. apply G. auto.
  - destruct (isinstance_of subclass v1 v2) eqn:IO; simpl in H; [|discriminate]. destruct v1; simpl in S1; discriminate.
  - destruct (isinstance_of subclass v1 v2) eqn:IO; cbn [negb] in H; [|discriminate].
    destruct v1; simpl in S1; try discriminate.
    + destruct v2; simpl in IO; try discriminate. reflexivity.
    + destruct v2; simpl in IO; try discriminate; simpl in *.
      * destruct (Bool.eqb b b0); auto. discriminate.
      * destruct (Z.eqb (Z.b2z b) z); auto. discriminate.
    + destruct v2; simpl in IO; try discriminate; simpl in *. destruct (Z.eqb z z0); auto. discriminate.
    + destruct v2; try discriminate. destruct (isclose f f0) eqn:C; [exact C|].
      destruct f as [a| | |], f0 as [b| | |]; simpl in H; try discriminate.
      destruct (Qeq_bool a b) eqn:Q; simpl in H; [|discriminate]. apply Qeq_bool_eq in Q. exfalso.
      assert (K : isclose (Fin a) (Fin b) = true); [|congruence]. unfold isclose. apply orb_true_iff. right.
      apply Qle_bool_iff. assert (Z0 : (Qabs (a - b) == 0)%Q). { rewrite (Qabs_wd (a - b) 0); [reflexivity|]. rewrite Q. ring. }
      rewrite Z0. discriminate.
    + destruct v2; simpl in IO; try discriminate; simpl in *. destruct (String.eqb s s0); auto. discriminate.
    + destruct v2 as [| | | | | | |e| |]; try discriminate.
      destruct (dict_diff_empty n path d e (wf_dict_nodup _ W1) (wf_dict_nodup _ W2) H) as [_ K].
      apply data_eq_dict_iff. intros k x I. destruct (K k x I) as [y [L E]]. exists y. split; auto.
      apply lookup_In in L. eapply IH; eauto using wf_dict_in. eapply everywhere_dict; eauto.
    + destruct v2 as [| | | | | | | |c2 e|]; try discriminate. destruct (data_eq _ _) eqn:DE; auto. exfalso.
      assert (N1 : NoDup (map fst (nameless c attrs))).
      { apply filter_nodup. apply filter_nodup. eapply wf_obj_nodup; eauto. }
      assert (N2 : NoDup (map fst (serializable_dict c2 e))).
      { apply filter_nodup. eapply wf_obj_nodup; eauto. }
      destruct (dict_diff_empty n path _ _ N1 N2 H) as [LE K].
      assert (I : incl (map fst (serializable_dict c2 e)) (map fst (nameless c attrs))).
      { apply NoDup_length_incl; auto; [rewrite !map_length; lia|]. intros k I. apply key_in_item in I. destruct I as [x I].
        destruct (K k x I) as [y [L _]]. apply lookup_In in L. eapply in_key; eauto. }
      apply everywhere_here in N. destruct N as [Nn Nm].
      assert (J : In (KStr "name") (map fst (serializable_dict c2 e))).
      { apply key_in_item in Nn. destruct Nn as [x Nn]. apply in_key with x. apply filter_In. split; auto.
        apply (proj2 (serializable_iff _ non_data_eq _ _)). cbn [fst]. split; [intros s Q; inversion Q|]. intros s Is Q. inversion Q; subst. contradiction. }
      apply I in J. assert (Q := nameless_lookup c attrs). apply lookup_None in Q. contradiction.
    + destruct v2; try discriminate. reflexivity.
Qed.

(** Objects that differ: what is said of their name *)
Lemma name_reported n c d e path r : wf_val (VObj c d) -> wf_val (VObj c e) ->
  (forall k, In k (map fst e) <-> In k (map fst d)) ->
  has_name non_serializable (VObj c e) -> data_eq (VObj c d) (VObj c e) = false ->
  diff_fuel (S n) (VObj c d) (VObj c e) path = Ok r ->
  In (slash path (str_key (KStr "name")), true) (missing_attributes r).
Proof.
  intros W1 W2 KS HN DE H. rewrite diff_fuel_S in H. cbn [seq_of isinstance_of] in H. rewrite String.eqb_refl in H. cbn [orb negb] in H.
  rewrite DE in H. destruct HN as [Nn Nm].
  assert (J : exists x, In (KStr "name", x) (serializable_dict c e)).
  { apply key_in_item in Nn. destruct Nn as [x Nn]. exists x. apply filter_In. split; auto.
    apply (proj2 (serializable_iff _ non_data_eq _ _)). cbn [fst]. split; [intros s Q; inversion Q|]. intros s Is Q. inversion Q; subst. contradiction. }
  assert (L : (length (nameless c d) < length (serializable_dict c e))%nat).
  { assert (N1 : NoDup (map fst (nameless c d))) by (apply filter_nodup; apply filter_nodup; eapply wf_obj_nodup; eauto).
    assert (I : incl (KStr "name" :: map fst (nameless c d)) (map fst (serializable_dict c e))).
    { intros k [<-|I].
      - destruct J as [x J]. eapply in_key; eauto.
      - apply key_in_item in I. destruct I as [x I]. apply filter_In in I. destruct I as [I _]. apply filter_In in I. destruct I as [I SI].
        apply in_key in I. apply KS in I. apply key_in_item in I. destruct I as [y I]. apply in_key with y. apply filter_In. auto. }
    apply NoDup_incl_length in I.
    - simpl in I. rewrite !map_length in I. lia.
    - constructor; auto. apply lookup_None. apply nameless_lookup. }
  unfold dict_diff in H. apply Nat.ltb_lt in L. rewrite L in H. apply diffs_ok in H. destruct H as [ds [F ->]].
  apply sum_missing. right. destruct J as [x J]. destruct (Forall2_in_l _ _ _ _ F J) as [dd [I Q]].
  exists dd. split; auto. unfold key_diff in Q. cbn [fst] in Q. rewrite nameless_lookup in Q. inversion Q; subst. simpl. auto.
Qed.
End D.

(** Lemmas about the shared helpers of [Base]. *)
From Coq Require Import List Bool Arith Lia ZArith Permutation.
From Verif Require Import Base.
Import ListNotations.

Lemma mapM_ok_inv {A B} (f : A -> res B) l r :
  mapM f l = Ok r -> Forall2 (fun x y => f x = Ok y) l r.
Proof.
  revert r; induction l as [|x l IH]; simpl; intros r H.
  - inversion H; constructor.
  - destruct (f x) eqn:E; simpl in H; try discriminate.
    destruct (mapM f l) eqn:E2; simpl in H; try discriminate.
    inversion H; subst. constructor; auto.
Qed.

Lemma mapM_ok {A B} (f : A -> res B) l r :
  Forall2 (fun x y => f x = Ok y) l r -> mapM f l = Ok r.
Proof.
  induction 1 as [|x y l r Hxy _ IH]; simpl; auto.
  rewrite Hxy; simpl; rewrite IH; reflexivity.
Qed.

Lemma mapM_ext {A B} (f g : A -> res B) l :
  (forall x, In x l -> f x = g x) -> mapM f l = mapM g l.
Proof.
  induction l as [|x l IH]; simpl; intros H; auto.
  rewrite (H x) by auto. rewrite IH by (intros; apply H; auto). reflexivity.
Qed.

Lemma mapM_pure {A B} (f : A -> B) l : mapM (fun x => Ok (f x)) l = Ok (map f l).
Proof. induction l; simpl; auto. rewrite IHl; reflexivity. Qed.

Lemma mapM_length {A B} (f : A -> res B) l r : mapM f l = Ok r -> length r = length l.
Proof. intros H. apply mapM_ok_inv in H. induction H; simpl; auto. Qed.

Lemma mapM_app {A B} (f : A -> res B) l1 l2 :
  mapM f (l1 ++ l2) = (let* a := mapM f l1 in let* b := mapM f l2 in Ok (a ++ b)).
Proof.
  induction l1; simpl.
  - destruct (mapM f l2); reflexivity.
  - destruct (f a); simpl; auto. rewrite IHl1. destruct (mapM f l1); simpl; auto.
    destruct (mapM f l2); reflexivity.
Qed.

Lemma foldM_app {A S} (f : S -> A -> res S) l1 l2 s :
  foldM f (l1 ++ l2) s = (let* s' := foldM f l1 s in foldM f l2 s').
Proof.
  revert s; induction l1; simpl; intros; auto.
  destruct (f s a); simpl; auto.
Qed.

Lemma foldM_inv {A S} (P : S -> Prop) (f : S -> A -> res S) l s s' :
  (forall x s s', In x l -> P s -> f s x = Ok s' -> P s') ->
  P s -> foldM f l s = Ok s' -> P s'.
Proof.
  revert s; induction l as [|x l IH]; simpl; intros s Hf Hs H.
  - inversion H; subst; auto.
  - destruct (f s x) eqn:E; simpl in H; try discriminate.
    eapply IH; [| | exact H]; eauto.
Qed.

Lemma compress_map {A} (keep : A -> bool) l : compress l (map keep l) = filter keep l.
Proof. induction l; simpl; auto. rewrite IHl. reflexivity. Qed.

Lemma compress_length_le {A} (l : list A) m : length (compress l m) <= length l.
Proof. revert m; induction l; intros [|[] m]; simpl; try lia; specialize (IHl m); lia. Qed.

Lemma memb_In {A} (eqb : A -> A -> bool)
  (Heq : forall x y, eqb x y = true <-> x = y) x l : memb eqb x l = true <-> In x l.
Proof.
  unfold memb; rewrite existsb_exists; split.
  - intros [y [Hy E]]. apply Heq in E; subst; auto.
  - intros H; exists x; split; auto. apply Heq; auto.
Qed.

Lemma memb_In_false {A} (eqb : A -> A -> bool)
  (Heq : forall x y, eqb x y = true <-> x = y) x l : memb eqb x l = false <-> ~ In x l.
Proof. rewrite <- (memb_In eqb Heq). destruct (memb eqb x l); split; congruence. Qed.

Lemma remove_first_ok {A} (eqb : A -> A -> bool)
  (Heq : forall x y, eqb x y = true <-> x = y) x l :
  In x l -> exists r, remove_first eqb x l = Ok r /\ Permutation l (x :: r).
Proof.
  induction l as [|y l IH]; simpl; [tauto|]. intros H.
  destruct (eqb x y) eqn:E.
  - apply Heq in E; subst. eauto.
  - destruct H as [->|H]. { rewrite (proj2 (Heq x x) eq_refl) in E; discriminate. }
    destruct (IH H) as [r [Hr P]]. rewrite Hr; simpl. exists (y :: r); split; auto.
    rewrite P. apply perm_swap.
Qed.

Lemma remove_first_inv {A} (eqb : A -> A -> bool)
  (Heq : forall x y, eqb x y = true <-> x = y) x l r :
  remove_first eqb x l = Ok r -> In x l /\ Permutation l (x :: r).
Proof.
  revert r; induction l as [|y l IH]; simpl; intros r H; [discriminate|].
  destruct (eqb x y) eqn:E.
  - apply Heq in E; inversion H; subst; auto.
  - destruct (remove_first eqb x l) eqn:E2; simpl in H; inversion H; subst.
    destruct (IH _ eq_refl) as [I P]. split; auto. rewrite P. apply perm_swap.
Qed.

Lemma remove_first_err {A} (eqb : A -> A -> bool)
  (Heq : forall x y, eqb x y = true <-> x = y) x l e :
  remove_first eqb x l = Err e -> ~ In x l.
Proof.
  intros H I. destruct (remove_first_ok eqb Heq x l I) as [r [Hr _]]. congruence.
Qed.

Lemma index_of_Some {A} (eqb : A -> A -> bool)
  (Heq : forall x y, eqb x y = true <-> x = y) x l n :
  index_of eqb x l = Some n -> nth_error l n = Some x /\ n < length l.
Proof.
  revert n; induction l as [|y l IH]; simpl; intros n H; [discriminate|].
  destruct (eqb x y) eqn:E.
  - apply Heq in E; inversion H; subst; simpl; split; auto; lia.
  - destruct (index_of eqb x l) eqn:E2; simpl in H; inversion H; subst.
    destruct (IH _ eq_refl); simpl; split; auto; lia.
Qed.

Lemma index_of_In {A} (eqb : A -> A -> bool)
  (Heq : forall x y, eqb x y = true <-> x = y) x l :
  In x l -> exists n, index_of eqb x l = Some n.
Proof.
  induction l as [|y l IH]; simpl; [tauto|]. intros H.
  destruct (eqb x y) eqn:E; eauto.
  destruct H as [->|H]. { rewrite (proj2 (Heq x x) eq_refl) in E; discriminate. }
  destruct (IH H) as [n ->]; simpl; eauto.
Qed.

Lemma index_of_None {A} (eqb : A -> A -> bool)
  (Heq : forall x y, eqb x y = true <-> x = y) x l :
  index_of eqb x l = None <-> ~ In x l.
Proof.
  split.
  - intros H I. destruct (index_of_In eqb Heq x l I); congruence.
  - intros H. destruct (index_of eqb x l) eqn:E; auto.
    apply (index_of_Some eqb Heq) in E. destruct E as [E _].
    apply nth_error_In in E. contradiction.
Qed.

Lemma index_of_nodup {A} (eqb : A -> A -> bool)
  (Heq : forall x y, eqb x y = true <-> x = y) x l n :
  NoDup l -> nth_error l n = Some x -> index_of eqb x l = Some n.
Proof.
  intros ND; revert n; induction ND as [|y l Hy ND IH]; intros n H.
  - destruct n; discriminate.
  - simpl. destruct n; simpl in H.
    + inversion H; subst. rewrite (proj2 (Heq x x) eq_refl). reflexivity.
    + destruct (eqb x y) eqn:E.
      * apply Heq in E; subst. apply nth_error_In in H. contradiction.
      * rewrite (IH _ H). reflexivity.
Qed.

Lemma dedup_In {A} (eqb : A -> A -> bool)
  (Heq : forall x y, eqb x y = true <-> x = y) seen l x :
  In x (dedup eqb seen l) <-> In x l /\ ~ In x seen.
Proof.
  revert seen; induction l as [|y l IH]; simpl; intros seen; [tauto|].
  destruct (memb eqb y seen) eqn:E.
  - apply (memb_In eqb Heq) in E. rewrite IH. split; [tauto|].
    intros [[->|H] N]; tauto.
  - apply (memb_In_false eqb Heq) in E. simpl. rewrite IH. simpl.
    split.
    + intros [->|[H N]]; tauto.
    + intros [[->|H] N]; auto.
      destruct (eqb y x) eqn:E2; [apply Heq in E2; auto|].
      right; split; auto. intros [->|?]; [|contradiction].
      rewrite (proj2 (Heq x x) eq_refl) in E2; discriminate.
Qed.

Lemma dedup_NoDup {A} (eqb : A -> A -> bool)
  (Heq : forall x y, eqb x y = true <-> x = y) seen l :
  NoDup (dedup eqb seen l).
Proof.
  revert seen; induction l as [|y l IH]; simpl; intros seen; [constructor|].
  destruct (memb eqb y seen); auto.
  constructor; auto. rewrite (dedup_In eqb Heq). simpl. tauto.
Qed.

Lemma dedup_id {A} (eqb : A -> A -> bool)
  (Heq : forall x y, eqb x y = true <-> x = y) seen l :
  NoDup l -> (forall x, In x l -> ~ In x seen) -> dedup eqb seen l = l.
Proof.
  intros ND; revert seen; induction ND as [|y l Hy ND IH]; simpl; intros seen H; auto.
  destruct (memb eqb y seen) eqn:E.
  - apply (memb_In eqb Heq) in E. destruct (H y); auto.
  - f_equal. apply IH. intros x Hx [->|I]; auto. exact (H x (or_intror Hx) I).
Qed.

Lemma py_index_nonneg n i : (0 <= i)%Z -> (i < Z.of_nat n)%Z -> py_index n i = Some (Z.to_nat i).
Proof.
  intros; unfold py_index. destruct (0 <=? i)%Z eqn:E1; [|apply Z.leb_gt in E1; lia].
  destruct (i <? Z.of_nat n)%Z eqn:E2; auto. apply Z.ltb_ge in E2; lia.
Qed.

Lemma py_index_lt n i k : py_index n i = Some k -> k < n.
Proof.
  unfold py_index. destruct (0 <=? i)%Z eqn:E1.
  - destruct (i <? Z.of_nat n)%Z eqn:E2; intros H; inversion H; subst.
    apply Z.ltb_lt in E2. apply Z.leb_le in E1. lia.
  - destruct (- Z.of_nat n <=? i)%Z eqn:E2; intros H; inversion H; subst.
    apply Z.leb_le in E2. apply Z.leb_gt in E1. lia.
Qed.

Lemma py_get_ok {A} (l : list A) i x :
  py_get l i = Ok x -> exists k, py_index (length l) i = Some k /\ nth_error l k = Some x.
Proof.
  unfold py_get. destruct (py_index (length l) i) eqn:E; intros H; [|discriminate].
  destruct (nth_error l n) eqn:E2; inversion H; subst; eauto.
Qed.

Lemma py_get_of_nat {A} (l : list A) n x :
  nth_error l n = Some x -> py_get l (Z.of_nat n) = Ok x.
Proof.
  intros H. unfold py_get. assert (n < length l) by (apply nth_error_Some; congruence).
  rewrite py_index_nonneg by lia. rewrite Nat2Z.id, H. reflexivity.
Qed.

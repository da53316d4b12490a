(** Topological sorting of finite graphs: what the graph library promises, and an
    algorithm that keeps the promise. *)
From Coq Require Import Arith Bool String Relations List Lia.
From Verif Require Import Base BaseProofs.
Import ListNotations.

Definition before {A} (x y : A) (l : list A) : Prop := exists a b c, l = a ++ x :: b ++ y :: c.

Section Topo.
Context {A : Type}.
Definition edge (E : list (A * A)) (a b : A) : Prop := In (a, b) E.
Definition node (N : list A) (E : list (A * A)) (x : A) : Prop := In x N \/ exists y, edge E x y \/ edge E y x.
Definition cyclic (E : list (A * A)) : Prop := exists x, clos_trans A (edge E) x x.
(** [sort] lists the nodes, the end of every edge before its start, or says there is a cycle. *)
Definition sorts (sort : list A -> list (A * A) -> option (list A)) : Prop :=
  forall N E, match sort N E with
              | Some l => NoDup l /\ (forall x, In x l <-> node N E x) /\ forall a b, edge E a b -> before b a l
              | None => cyclic E
              end.
End Topo.

(** ** Facts on [before] *)
Section Before.
Context {A : Type}.
Implicit Types l : list A.
Lemma before_in x y l : before x y l -> In x l /\ In y l.
Proof. intros [a [b [c ->]]]. split; apply in_or_app; right; simpl; auto. right. apply in_or_app. simpl. auto. Qed.
Lemma before_nth l x y : NoDup l -> before x y l -> exists i j, i < j /\ nth_error l i = Some x /\ nth_error l j = Some y.
Proof.
  intros N [a [b [c ->]]]. exists (length a), (length a + S (length b)). split; [lia|]. split.
  - rewrite nth_error_app2, Nat.sub_diag by lia. reflexivity.
  - rewrite nth_error_app2 by lia. replace (length a + S (length b) - length a) with (S (length b)) by lia. simpl.
    rewrite nth_error_app2, Nat.sub_diag by lia. reflexivity.
Qed.
Lemma nth_before l x y i j : i < j -> nth_error l i = Some x -> nth_error l j = Some y -> before x y l.
Proof.
  intros L I J. apply nth_error_split in I. destruct I as [a [b [-> <-]]].
  rewrite nth_error_app2 in J by lia. destruct (j - length a) as [|k] eqn:K; [lia|]. simpl in J.
  apply nth_error_split in J. destruct J as [b1 [c [-> _]]]. exists a, b1, c. reflexivity.
Qed.
Lemma before_trans l x y z : NoDup l -> before x y l -> before y z l -> before x z l.
Proof.
  intros N H K. apply before_nth in H, K; auto. destruct H as [i [j [L [I J]]]], K as [j' [k [L' [J' K]]]].
  assert (j = j') by (rewrite NoDup_nth_error in N; apply N; [apply nth_error_Some; congruence|congruence]). subst.
  apply (nth_before l x z i k); auto. lia.
Qed.
Lemma before_irrefl l x : NoDup l -> ~ before x x l.
Proof.
  intros N H. apply before_nth in H; auto. destruct H as [i [j [L [I J]]]].
  assert (i = j) by (rewrite NoDup_nth_error in N; apply N; [apply nth_error_Some; congruence|congruence]). lia.
Qed.
Lemma before_not x y l1 l2 : NoDup (l1 ++ l2) -> In x l1 -> In y l2 -> before x y (l1 ++ l2).
Proof.
  intros N X Y. apply in_split in X, Y. destruct X as [a [b ->]], Y as [c [d ->]]. exists a, (b ++ c), d.
  rewrite <- app_assoc. simpl. rewrite <- app_assoc. reflexivity.
Qed.
Lemma before_clos l (R : A -> A -> Prop) : NoDup l -> (forall a b, R a b -> before b a l) -> forall a b, clos_trans A R a b -> before b a l.
Proof. intros N H a b C. induction C; auto. eapply before_trans; eauto. Qed.
(** order in what is left once an element is removed *)
Lemma before_filter (f : A -> bool) x y l : before x y l -> f x = true -> f y = true -> before x y (List.filter f l).
Proof.
  intros [a [b [c ->]]] X Y. rewrite filter_app. simpl. rewrite X, filter_app. simpl. rewrite Y. eexists. eexists. eexists. reflexivity.
Qed.
Lemma before_map {B} (f : A -> B) x y l : before x y l -> before (f x) (f y) (map f l).
Proof. intros [a [b [c ->]]]. rewrite map_app. simpl. rewrite map_app. simpl. eexists. eexists. eexists. reflexivity. Qed.
End Before.

Lemma sorts_acyclic {A} (sort : list A -> list (A * A) -> option (list A)) N E l : sorts sort -> sort N E = Some l -> ~ cyclic E.
Proof.
  intros S H [x C]. specialize (S N E). rewrite H in S. destruct S as [ND [_ B]]. apply (before_irrefl l x ND). apply (before_clos l (edge E)); auto.
Qed.

(** ** Removing nodes without remaining successor, over and over *)
Section Kahn.
Context {A : Type}.
Variable eqb : A -> A -> bool.
Hypothesis eqb_eq : forall a b, eqb a b = true <-> a = b.
Variable E : list (A * A).
Definition has_successor (rest : list A) (x : A) : bool := existsb (fun e => eqb (fst e) x && memb eqb (snd e) rest) E.
Fixpoint kahn (n : nat) (rest : list A) : option (list A) :=
  match n with
  | O => Some []
  | S n' => match rest with
            | [] => Some []
            | _ => match List.find (fun x => negb (has_successor rest x)) rest with
                   | None => None
                   | Some x => option_map (cons x) (kahn n' (List.filter (fun y => negb (eqb y x)) rest))
                   end
            end
  end.
Lemma has_successor_iff rest x : has_successor rest x = true <-> exists y, In (x, y) E /\ In y rest.
Proof.
  unfold has_successor. rewrite existsb_exists. split.
  - intros [[a b] [I H]]. apply andb_true_iff in H. destruct H as [H1 H2]. apply eqb_eq in H1. simpl in *. subst.
    apply memb_In in H2; auto. eauto.
  - intros [y [I R]]. exists (x, y). split; auto. apply andb_true_iff. split; [apply eqb_eq; auto|apply memb_In; auto].
Qed.
Lemma filter_smaller rest x : In x rest -> length (List.filter (fun y => negb (eqb y x)) rest) < length rest.
Proof.
  induction rest as [|z rest IH]; [contradiction|]. intros [->|I]; simpl.
  - replace (eqb x x) with true by (symmetry; apply eqb_eq; auto). simpl.
    assert (forall l, length (List.filter (fun y => negb (eqb y x)) l) <= length l).
    { induction l as [|w l IL]; simpl; auto. destruct (negb (eqb w x)); simpl; lia. }
    specialize (H rest). lia.
  - destruct (negb (eqb z x)); simpl; specialize (IH I); lia.
Qed.
Lemma filter_in rest x z : In z (List.filter (fun y => negb (eqb y x)) rest) <-> In z rest /\ z <> x.
Proof.
  rewrite filter_In. split; intros [H1 H2]; split; auto.
  - intros ->. rewrite (proj2 (eqb_eq x x) eq_refl) in H2. discriminate.
  - apply negb_true_iff. apply not_true_iff_false. intros H. apply eqb_eq in H. auto.
Qed.
Lemma kahn_some n rest l : length rest <= n -> kahn n rest = Some l ->
  NoDup l /\ (forall x, In x l <-> In x rest) /\ forall a b, In (a, b) E -> In a rest -> In b rest -> before b a l.
Proof.
  revert rest l. induction n as [|n IH]; intros rest l L H; simpl in H.
  - destruct rest; [|simpl in L; lia]. injection H as <-. split; [constructor|]. split; [tauto|]. intros a b _ [].
  - destruct rest as [|r rest]; [injection H as <-; split; [constructor|]; split; [tauto|]; intros a b _ []|].
    set (R := r :: rest) in *. destruct (List.find _ R) as [x|] eqn:F; [|discriminate].
    apply find_some in F. destruct F as [XI XS]. apply negb_true_iff in XS.
    destruct (kahn n _) as [l'|] eqn:K; [|discriminate]. injection H as <-.
    apply IH in K; [|pose proof (filter_smaller R x XI); lia]. destruct K as [ND [ME BE]].
    split; [constructor; auto; rewrite ME, filter_in; tauto|]. split.
    + intros z. simpl. rewrite ME, filter_in. split; [intros [<-|[]]; auto|]. intros Z.
      destruct (eqb z x) eqn:D; [apply eqb_eq in D; auto|]. right. split; auto. intros ->. rewrite (proj2 (eqb_eq x x) eq_refl) in D. discriminate.
    + intros a b AB IA IB. destruct (eqb a x) eqn:DA.
      * apply eqb_eq in DA. subst. exfalso. apply not_true_iff_false in XS. apply XS. apply has_successor_iff. eauto.
      * assert (a <> x) by (intros ->; rewrite (proj2 (eqb_eq x x) eq_refl) in DA; discriminate).
        destruct (eqb b x) eqn:DB.
        -- apply eqb_eq in DB. subst. assert (IL : In a l') by (apply ME, filter_in; auto). apply in_split in IL.
           destruct IL as [u [w ->]]. exists [], u, w. reflexivity.
        -- assert (b <> x) by (intros ->; rewrite (proj2 (eqb_eq x x) eq_refl) in DB; discriminate).
           destruct (BE a b AB) as [u [w [t ->]]]; try (apply filter_in; auto). exists (x :: u), w, t. reflexivity.
Qed.
(** nodes that all have a successor among themselves make a cycle *)
Lemma all_successors (rest : list A) (r : A) : In r rest -> (forall x, In x rest -> exists y, In (x, y) E /\ In y rest) -> cyclic E.
Proof.
  intros RI H.
  set (next x := match List.find (fun e => eqb (fst e) x && memb eqb (snd e) rest) E with Some e => snd e | None => x end).
  assert (NX : forall x, In x rest -> In (x, next x) E /\ In (next x) rest).
  { intros x X. unfold next. destruct (List.find _ E) as [[a b]|] eqn:F.
    - apply find_some in F. destruct F as [I B]. apply andb_true_iff in B. destruct B as [B1 B2]. apply eqb_eq in B1. simpl in *. subst.
      split; auto. apply memb_In in B2; auto.
    - exfalso. destruct (H x X) as [y [Y1 Y2]]. apply (find_none _ _ F) in Y1. simpl in Y1. apply andb_false_iff in Y1. destruct Y1 as [Y1|Y1].
      + rewrite (proj2 (eqb_eq x x) eq_refl) in Y1. discriminate.
      + apply memb_In_false in Y1; auto. }
  set (walk i := Nat.iter i next r).
  assert (WI : forall i, In (walk i) rest) by (induction i; simpl; auto; apply NX; auto).
  assert (WP : forall i k, clos_trans A (edge E) (walk i) (walk (k + S i))).
  { induction k as [|k IK]; simpl; [apply t_step, NX, WI|]. eapply t_trans; [exact IK|]. apply t_step. apply (NX (walk (k + S i))), WI. }
  set (ws := map walk (seq 0 (S (length rest)))).
  assert (D : ~ NoDup ws).
  { intros N. apply NoDup_incl_length with (l' := rest) in N.
    - unfold ws in N. rewrite map_length, seq_length in N. lia.
    - intros x X. apply in_map_iff in X. destruct X as [i [<- _]]. apply WI. }
  assert (X : exists i j, i < j /\ walk i = walk j).
  { destruct (existsb (fun i => existsb (fun j => (i <? j) && eqb (walk i) (walk j)) (seq 0 (S (length rest)))) (seq 0 (S (length rest)))) eqn:B.
    - apply existsb_exists in B. destruct B as [i [_ B]]. apply existsb_exists in B. destruct B as [j [_ B]].
      apply andb_true_iff in B. destruct B as [B1 B2]. apply Nat.ltb_lt in B1. apply eqb_eq in B2. eauto.
    - exfalso. apply D. unfold ws. apply NoDup_nth_error. intros i j LI EQ. rewrite map_length, seq_length in LI.
      assert (LJ : j < S (length rest)).
      { assert (nth_error (map walk (seq 0 (S (length rest)))) j <> None).
        { rewrite <- EQ. apply nth_error_Some. rewrite map_length, seq_length. auto. }
        apply nth_error_Some in H0. rewrite map_length, seq_length in H0. auto. }
      rewrite !nth_error_map in EQ.
      assert (SE : forall k, k < S (length rest) -> nth_error (seq 0 (S (length rest))) k = Some k).
      { intros k K. rewrite (nth_error_nth' _ 0) by (rewrite seq_length; auto). rewrite seq_nth by auto. reflexivity. }
      rewrite !SE in EQ by auto. simpl in EQ. injection EQ as EQ.
      assert (NO : forall a b, a < b -> b < S (length rest) -> walk a <> walk b).
      { intros a b AB BB WE. apply not_true_iff_false in B. apply B. apply existsb_exists. exists a. split; [apply in_seq; lia|].
        apply existsb_exists. exists b. split; [apply in_seq; lia|]. apply andb_true_iff. split; [apply Nat.ltb_lt; auto|apply eqb_eq; auto]. }
      destruct (Nat.lt_trichotomy i j) as [L|[L|L]]; auto; exfalso; [apply (NO i j)|apply (NO j i)]; auto. }
  destruct X as [i [j [L WE]]]. exists (walk i). rewrite WE at 2. replace j with ((j - S i) + S i) by lia. apply WP.
Qed.
Lemma kahn_none n rest : kahn n rest = None -> cyclic E.
Proof.
  revert rest. induction n as [|n IH]; intros rest H; simpl in H; [discriminate|]. destruct rest as [|r rest]; [discriminate|].
  set (R := r :: rest) in *. destruct (List.find _ R) as [x|] eqn:F.
  - destruct (kahn n _) eqn:K; [discriminate|]. eauto.
  - apply (all_successors R r); [simpl; auto|]. intros x X. apply (find_none _ _ F) in X. apply negb_false_iff in X. apply has_successor_iff; auto.
Qed.
End Kahn.

Definition ends {A} (E : list (A * A)) : list A := flat_map (fun e => [fst e; snd e]) E.
Definition kahn_sort (N : list string) (E : list (string * string)) : option (list string) :=
  let l := dedup String.eqb [] (N ++ ends E) in kahn String.eqb E (length l) l.
Lemma ends_in {A} (E : list (A * A)) x : In x (ends E) <-> exists y, edge E x y \/ edge E y x.
Proof.
  unfold ends, edge. rewrite in_flat_map. split.
  - intros [[a b] [I H]]. simpl in H. destruct H as [<-|[<-|[]]]; eauto.
  - intros [y [H|H]]; [exists (x, y)|exists (y, x)]; simpl; auto.
Qed.

Lemma kahn_sorts : sorts kahn_sort.
Proof.
  intros N E. unfold kahn_sort. set (l := dedup String.eqb [] (N ++ ends E)).
  assert (ML : forall x, In x l <-> node N E x).
  { intros x. unfold l. rewrite (dedup_In String.eqb String.eqb_eq), in_app_iff, ends_in. unfold node. simpl. tauto. }
  destruct (kahn String.eqb E (length l) l) as [r|] eqn:K.
  - apply (kahn_some String.eqb String.eqb_eq) in K; auto. destruct K as [ND [ME BE]]. split; auto. split.
    + intros x. rewrite ME. apply ML.
    + intros a b AB. apply BE; auto; apply ML; right; eauto.
  - eapply kahn_none; eauto. exact String.eqb_eq.
Qed.

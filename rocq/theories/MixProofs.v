(** Proofs about the mix of packages of a workflow. *)
From Coq Require Import List String Bool Arith Lia QArith Lqa.
From Verif Require Import Base MixModel MixSpec.
Import ListNotations.
Local Open Scope list_scope.

Section Ind.
Variable P : block -> Prop.
Hypothesis HU : forall m, P (Uses m).
Hypothesis HO : P Other.
Hypothesis HS : forall l, Forall P l -> P (Sub l).
Fixpoint block_ind' (b : block) : P b :=
  match b with
  | Uses m => HU m
  | Other => HO
  | Sub l => HS l ((fix go l : Forall P l := match l with [] => Forall_nil P | b :: l => Forall_cons b (block_ind' b) (go l) end) l)
  end.
End Ind.
Lemma block_mix_sub l : block_mix (Sub l) = Some (package_mix l).
Proof.
  reflexivity.
Qed.

Lemma fraction_add m p f q : (fraction (add m p f) q == fraction m q + if (p =? q)%string then f else 0)%Q.
Proof.
  induction m as [|[r g] m IH]; cbn [add fraction].
  - destruct (p =? q)%string; lra.
  - destruct (String.eqb_spec r p) as [->|N]; cbn [fraction].
    + destruct (p =? q)%string; lra.
    + destruct (String.eqb_spec r q) as [->|N2]; [|rewrite IH; reflexivity]. destruct (String.eqb_spec p q) as [->|]; [congruence|lra].
Qed.
Lemma keys_add m p f : map fst (add m p f) = if existsb (String.eqb p) (map fst m) then map fst m else map fst m ++ [p].
Proof.
  induction m as [|[r g] m IH]; cbn [add map fst existsb]; [reflexivity|]. rewrite (String.eqb_sym p r). destruct (String.eqb_spec r p) as [->|N]; cbn [map fst orb]; [reflexivity|]. rewrite IH. destruct (existsb _ _); reflexivity.
Qed.
Lemma sum_add m p f : (sum (add m p f) == sum m + f)%Q.
Proof. induction m as [|[r g] m IH]; cbn [add sum]; [lra|]. destruct (r =? p)%string; cbn [sum]; [lra|]. rewrite IH. lra. Qed.
Lemma sum_merge items : forall m, (sum (merge m items) == sum m + sum items)%Q.
Proof. induction items as [|[p f] items IH]; intros m; cbn [merge sum]; [lra|]. rewrite IH, sum_add. lra. Qed.
Lemma existsb_in p l : existsb (String.eqb p) l = true <-> In p l.
Proof. rewrite existsb_exists. split; [intros (x & I & E); apply String.eqb_eq in E; subst; auto|intros I; exists p; rewrite String.eqb_refl; auto]. Qed.
Lemma fraction_absent m p : ~ In p (map fst m) -> (fraction m p == 0)%Q.
Proof. induction m as [|[q f] m IH]; cbn; intros N; [reflexivity|]. destruct (String.eqb_spec q p) as [->|]; [tauto|auto]. Qed.
Lemma fraction_merge items : NoDup (map fst items) -> forall m p, (fraction (merge m items) p == fraction m p + fraction items p)%Q.
Proof.
  induction items as [|[q f] items IH]; intros N m p; cbn [merge fraction]; [lra|]. cbn [map fst] in N. inversion N as [|? ? NI ND]; subst. rewrite IH by auto. rewrite fraction_add.
  destruct (String.eqb_spec q p) as [->|]; [|lra]. rewrite (fraction_absent items p NI). lra.
Qed.
Lemma nodup_add m p f : NoDup (map fst m) -> NoDup (map fst (add m p f)).
Proof.
  intros N. rewrite keys_add. destruct (existsb (String.eqb p) (map fst m)) eqn:E; [auto|]. apply NoDup_rev in N. rewrite <- (rev_involutive (map fst m ++ [p])). apply NoDup_rev. rewrite rev_app_distr. cbn. constructor; [|auto].
  intros I. apply in_rev in I. apply existsb_in in I. congruence.
Qed.
Lemma nodup_merge items : forall m, NoDup (map fst m) -> NoDup (map fst (merge m items)).
Proof. induction items as [|[p f] items IH]; intros m N; cbn [merge]; [auto|]. apply IH, nodup_add, N. Qed.
Definition positive (m : mix) : Prop := Forall (fun pf => (0 < snd pf)%Q) m.
Lemma positive_add m p f : positive m -> (0 < f)%Q -> positive (add m p f).
Proof.
  intros P F. induction P as [|[q g] m H P IH]; cbn [add]; [constructor; [exact F|constructor]|]. cbn in H. destruct (q =? p)%string; constructor; cbn; auto. lra.
Qed.
Lemma positive_merge items : positive items -> forall m, positive m -> positive (merge m items).
Proof. induction 1 as [|[p f] items H P IH]; intros m Q; cbn [merge]; [auto|]. apply IH, positive_add; auto. Qed.
Lemma positive_sum m : positive m -> m = [] \/ (0 < sum m)%Q.
Proof.
  intros P. assert (H : (0 <= sum m)%Q). { induction P as [|[p f] m H P IH]; cbn [sum]; [lra|]. cbn in H. lra. }
  destruct P as [|[p f] m F P]; [auto|]. right. cbn [sum] in *. cbn in F. assert (H' : (0 <= sum m)%Q). { clear -P. induction P as [|[p f] m H P IH]; cbn [sum]; [lra|]. cbn in H. lra. } lra.
Qed.
Lemma keys_dimensionless m : map fst (dimensionless m) = map fst m.
Proof. unfold dimensionless. rewrite map_map. reflexivity. Qed.
Lemma fraction_dimensionless m p : (fraction (dimensionless m) p == fraction m p / sum m)%Q.
Proof.
  unfold dimensionless. generalize (sum m). intros s. induction m as [|[q f] m IH]; cbn [map fraction fst snd]; [unfold Qdiv; lra|]. destruct (q =? p)%string; [reflexivity|exact IH].
Qed.
Lemma sum_dimensionless m : ~ (sum m == 0)%Q -> (sum (dimensionless m) == 1)%Q.
Proof.
  intros N. unfold dimensionless. assert (H : forall s, (sum (map (fun pf => (fst pf, (snd pf / s)%Q)) m) == sum m / s)%Q).
  { intros s. clear N. induction m as [|[q f] m IH]; cbn [map sum fst snd]; [unfold Qdiv; lra|]. rewrite IH. unfold Qdiv. lra. }
  rewrite H. field. auto.
Qed.
Lemma positive_dimensionless m : positive m -> positive (dimensionless m).
Proof.
  intros P. destruct (positive_sum m P) as [->|S]; [constructor|]. unfold dimensionless. revert S. generalize (sum m). intros s S. induction P as [|[q f] m H P IH]; cbn [map]; constructor; auto.
  cbn in *. apply Qlt_shift_div_l; [exact S|]. lra.
Qed.

(** What is known of the mix of a block or of a workflow. *)
Definition fine (m : mix) : Prop := NoDup (map fst m) /\ positive m /\ (m = [] \/ (sum m == 1)%Q).
Definition Qnat (n : nat) : Q := inject_Z (Z.of_nat n).
Lemma Qnat_S n : (Qnat (S n) == 1 + Qnat n)%Q.
Proof. unfold Qnat. rewrite Nat2Z.inj_succ, <- Z.add_1_l, inject_Z_plus. reflexivity. Qed.
Lemma Qnat_pos n : (n <> 0)%nat -> (0 < Qnat n)%Q.
Proof. intros N. unfold Qnat. change 0%Q with (inject_Z 0). rewrite <- Zlt_Qlt. lia. Qed.

Definition block_ok (b : block) : Prop :=
  match block_mix b with
  | Some items => fine items /\ (items = [] <-> counts b = false) /\ forall p, (fraction items p == part b p)%Q
  | None => counts b = false /\ forall p, part b p = 0%Q
  end.
Lemma collect_ok l : Forall block_ok l -> forall m, NoDup (map fst m) -> positive m ->
  NoDup (map fst (collect_mix l m)) /\ positive (collect_mix l m) /\ (sum (collect_mix l m) == sum m + Qnat (number l))%Q /\ forall p, (fraction (collect_mix l m) p == fraction m p + parts l p)%Q.
Proof.
  induction 1 as [|b l B F IH]; intros m N P; cbn [collect_mix parts].
  - split; [auto|]. split; [auto|]. split; [change (Qnat (number [])) with 0%Q; lra|]. intros p. lra.
  - unfold block_ok in B. destruct (block_mix b) as [items|].
    + destruct B as ((IN & IP & IS) & IC & IF). destruct (IH (merge m items) (nodup_merge items m N) (positive_merge items IP m P)) as (A1 & A2 & A3 & A4).
      split; [auto|]. split; [auto|]. split.
      * rewrite A3, sum_merge. unfold number. cbn [filter]. destruct (counts b) eqn:C.
        -- cbn [List.length]. rewrite Qnat_S. destruct IS as [IS|IS]; [apply IC in IS; discriminate|]. rewrite IS. lra.
        -- rewrite (proj2 IC eq_refl). cbn [sum]. lra.
      * intros p. rewrite A4, fraction_merge by auto. rewrite IF. lra.
    + destruct B as [C Z]. destruct (IH m N P) as (A1 & A2 & A3 & A4). split; [auto|]. split; [auto|]. split; [rewrite A3; unfold number; cbn [filter]; rewrite C; reflexivity|]. intros p. rewrite A4, Z. lra.
Qed.
Lemma number_zero l : number l = 0%nat <-> existsb counts l = false.
Proof.
  unfold number. rewrite length_zero_iff_nil. induction l as [|b l IH]; cbn; [tauto|]. destruct (counts b); cbn; [split; discriminate|exact IH].
Qed.
Lemma package_ok l : Forall block_ok l -> fine (package_mix l) /\ (package_mix l = [] <-> existsb counts l = false) /\
  forall p, (fraction (package_mix l) p == parts l p / Qnat (number l))%Q.
Proof.
  intros F. destruct (collect_ok l F [] (NoDup_nil _) (Forall_nil _)) as (N & P & S & FR). cbn [sum fraction] in *. unfold package_mix. set (m := collect_mix l []) in *.
  assert (E : m = [] <-> existsb counts l = false).
  { rewrite <- number_zero. split.
    - intros E. rewrite E in S. cbn [sum] in S. destruct (Nat.eq_dec (number l) 0) as [|NZ]; [auto|]. apply Qnat_pos in NZ. lra.
    - intros Z. rewrite Z in S. destruct (positive_sum m P) as [|X]; [auto|]. change (Qnat 0) with 0%Q in S. lra. }
  split; [|split].
  - split; [rewrite keys_dimensionless; auto|]. split; [apply positive_dimensionless; auto|]. destruct (positive_sum m P) as [->|X]; [left; reflexivity|]. right. apply sum_dimensionless. lra.
  - rewrite <- E. unfold dimensionless. destruct m; cbn; split; congruence.
  - intros p. rewrite fraction_dimensionless, FR, S. rewrite !Qplus_0_l. reflexivity.
Qed.
Lemma all_ok b : block_ok b.
Proof.
  induction b as [m| |l F] using block_ind'.
  - unfold block_ok. cbn [block_mix]. split; [|split].
    + split; [repeat constructor; auto|]. split; [repeat constructor|]. right. cbn. lra.
    + split; discriminate.
    + intros p. cbn [fraction part]. destruct (_ =? p)%string; reflexivity.
  - split; reflexivity.
  - unfold block_ok. rewrite block_mix_sub. destruct (package_ok l F) as (A & B & C). split; [auto|]. split; [exact B|]. intros p. reflexivity.
Qed.
Lemma all_ok_list l : Forall block_ok l.
Proof. apply Forall_forall. intros b _. apply all_ok. Qed.

(** Proofs on the writing of Word documents. *)
From Coq Require Import ZArith List Bool Arith Lia.
From Verif Require Import Base WriterModel WriterSpec.
Import ListNotations.
Open Scope nat_scope.

Lemma put_ok {A} (x : A) : forall l k, k < length l -> exists r, put k x l = Ok r /\ length r = length l /\
  forall m, nth_error r m = if m =? k then Some x else nth_error l m.
Proof.
  induction l as [|y l IH]; intros k L; cbn in L; [lia|]. destruct k as [|k]; cbn [put].
  - exists (x :: l). repeat split. intros [|m]; reflexivity.
  - destruct (IH k) as (r & -> & Lr & H); [lia|]. exists (y :: r). cbn. repeat split; [lia|]. intros [|m]; [reflexivity|]. apply H.
Qed.
Lemma put_err {A} (x : A) : forall l k, length l <= k -> put k x l = Err IndexError.
Proof.
  induction l as [|y l IH]; intros k L; [destruct k; reflexivity|]. cbn in L. destruct k as [|k]; [lia|]. cbn. rewrite IH by lia. reflexivity.
Qed.

Section Cells.
Variable text : Type.

Lemma write_row_ok columns i : forall row j (cells : list text), (row <> [] -> i * columns + j + length row <= length cells) ->
  exists r, write_row text columns i j row cells = Ok r /\ length r = length cells /\
  forall m, nth_error r m = match (if i * columns + j <=? m then nth_error row (m - (i * columns + j)) else None) with
                            | Some t => Some t | None => nth_error cells m end.
Proof.
  induction row as [|c row IH]; intros j cells L; cbn [write_row].
  - exists cells. repeat split. intros m. destruct (_ <=? m); [destruct (m - _)|]; reflexivity.
  - specialize (L ltac:(discriminate)). cbn in L. destruct (put_ok c cells (j + i * columns)) as (r & -> & Lr & H); [lia|]. cbn [bind].
    destruct (IH (S j) r) as (r' & -> & Lr' & H'); [intros; lia|]. exists r'. split; [reflexivity|]. split; [lia|].
    intros m. rewrite H', H. destruct (i * columns + S j <=? m) eqn:E.
    + apply Nat.leb_le in E. replace (i * columns + j <=? m) with true by (symmetry; apply Nat.leb_le; lia).
      replace (m =? j + i * columns) with false by (symmetry; apply Nat.eqb_neq; lia).
      replace (m - (i * columns + j)) with (S (m - (i * columns + S j))) by lia. reflexivity.
    + apply Nat.leb_gt in E. destruct (m =? j + i * columns) eqn:F.
      * apply Nat.eqb_eq in F. replace (i * columns + j <=? m) with true by (symmetry; apply Nat.leb_le; lia).
        replace (m - (i * columns + j)) with 0 by lia. reflexivity.
      * apply Nat.eqb_neq in F. replace (i * columns + j <=? m) with false by (symmetry; apply Nat.leb_gt; lia). reflexivity.
Qed.
Lemma write_row_err columns i : forall row j (cells : list text), row <> [] -> length cells < i * columns + j + length row ->
  write_row text columns i j row cells = Err IndexError.
Proof.
  induction row as [|c row IH]; intros j cells N L; [congruence|]. cbn [write_row]. cbn in L.
  destruct (le_lt_dec (length cells) (j + i * columns)) as [K|K]; [rewrite put_err by lia; reflexivity|].
  destruct (put_ok c cells (j + i * columns) K) as (r & -> & Lr & _). cbn [bind].
  destruct row as [|c' row]; [cbn in L; lia|]. apply IH; [discriminate|]. cbn in *. lia.
Qed.

Definition reaches_from (columns base : nat) (rows : list (list text)) (i k : nat) (t : text) : Prop :=
  exists row, nth_error rows i = Some row /\ (base + i) * columns <= k /\ nth_error row (k - (base + i) * columns) = Some t.

Lemma write_rows_ok columns : forall rows base (cells : list text),
  (forall i row, nth_error rows i = Some row -> row <> [] -> (base + i) * columns + length row <= length cells) ->
  exists r, write_rows text columns base rows cells = Ok r /\ length r = length cells /\
  (forall k i t, reaches_from columns base rows i k t -> (forall i' t', i < i' -> ~ reaches_from columns base rows i' k t') -> nth_error r k = Some t) /\
  (forall k, (forall i t, ~ reaches_from columns base rows i k t) -> nth_error r k = nth_error cells k).
Proof.
  induction rows as [|row rows IH]; intros base cells L; cbn [write_rows].
  - exists cells. repeat split. intros k i t (row & E & _). destruct i; discriminate.
  - destruct (write_row_ok columns base row 0 cells) as (c & -> & Lc & H).
    { intros N. specialize (L 0 row eq_refl N). rewrite !Nat.add_0_r in *. exact L. }
    cbn [bind]. destruct (IH (S base) c) as (r & -> & Lr & H1 & H2).
    { intros i row' E N. rewrite Lc. replace (S base + i) with (base + S i) by lia. apply (L (S i) row' E N). }
    exists r. split; [reflexivity|]. split; [lia|].
    assert (S1 : forall i k t, reaches_from columns (S base) rows i k t <-> reaches_from columns base (row :: rows) (S i) k t).
    { intros i k t. unfold reaches_from. cbn [nth_error]. replace (base + S i) with (S base + i) by lia. reflexivity. }
    assert (S0 : forall k t, reaches_from columns base (row :: rows) 0 k t <->
      (if base * columns + 0 <=? k then nth_error row (k - (base * columns + 0)) else None) = Some t).
    { intros k t. unfold reaches_from. cbn [nth_error]. rewrite !Nat.add_0_r. split.
      - intros (row' & E & M & F). injection E as <-. apply Nat.leb_le in M. rewrite M. exact F.
      - destruct (base * columns <=? k) eqn:E; [|discriminate]. intros F. apply Nat.leb_le in E. eauto. }
    split.
    + intros k [|i] t R N.
      * rewrite H2; [rewrite H; apply S0 in R; rewrite R; reflexivity|]. intros i' t' R'. apply (N (S i') t'); [lia|]. apply S1. exact R'.
      * apply (H1 k i t); [apply S1; exact R|]. intros i' t' M R'. apply (N (S i') t'); [lia|]. apply S1. exact R'.
    + intros k N. rewrite H2 by (intros i t R; apply (N (S i) t); apply S1; exact R). rewrite H.
      destruct (if _ <=? k then _ else None) as [t|] eqn:E; [|reflexivity]. exfalso. apply (N 0 t). apply S0. exact E.
Qed.
Lemma write_rows_err columns : forall rows base (cells : list text) i row, nth_error rows i = Some row -> row <> [] ->
  length cells < (base + i) * columns + length row -> write_rows text columns base rows cells = Err IndexError.
Proof.
  induction rows as [|row0 rows IH]; intros base cells i row E N L; [destruct i; discriminate|]. cbn [write_rows].
  assert (D : (row0 <> [] /\ length cells < base * columns + 0 + length row0) \/ (row0 <> [] -> base * columns + 0 + length row0 <= length cells)).
  { destruct row0; [right; congruence|]. destruct (le_lt_dec (base * columns + 0 + length (t :: row0)) (length cells)); [right; auto|left; split; [discriminate|auto]]. }
  destruct D as [[N0 L0]|L0]; [rewrite write_row_err by assumption; reflexivity|].
  destruct (write_row_ok columns base row0 0 cells L0) as (c & -> & Lc & _). cbn [bind]. destruct i as [|i].
  - injection E as <-. specialize (L0 N). rewrite Nat.add_0_r in *. lia.
  - apply (IH (S base) c i row E N). rewrite Lc. replace (S base + i) with (base + S i) by lia. exact L.
Qed.
End Cells.

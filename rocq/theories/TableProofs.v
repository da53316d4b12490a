(** Proofs about tables. *)
From Coq Require Import Ascii String DecimalString List Bool Arith Lia.
From Verif Require Import Base TableModel.
Import ListNotations.
Open Scope list_scope.
Open Scope string_scope.
Open Scope nat_scope.

Lemma sapp_assoc a b c : (a ++ b) ++ c = a ++ b ++ c.
Proof. induction a as [|x a IH]; simpl; auto. rewrite IH. auto. Qed.

Lemma sapp_nil a : a ++ "" = a.
Proof. induction a as [|x a IH]; simpl; auto. rewrite IH. auto. Qed.

(** number of occurrences of a character *)
Fixpoint count (c : ascii) (s : string) : nat :=
  match s with EmptyString => 0 | String d s => (if Ascii.eqb c d then 1 else 0) + count c s end.

Lemma count_app c a b : count c (a ++ b) = count c a + count c b.
Proof. induction a as [|x a IH]; simpl; auto. rewrite IH. lia. Qed.

Lemma count_substring c n s : count c (String.substring 0 n s) <= count c s.
Proof. revert s. induction n as [|n IH]; intros [|x s]; simpl; auto; [lia|]. specialize (IH s). lia. Qed.

Lemma substring_all n s : String.length s <= n -> String.substring 0 n s = s.
Proof.
  revert s. induction n as [|n IH]; intros [|x s] H; simpl in *; auto; [lia|]. rewrite IH by lia. auto.
Qed.

Lemma length_substring n s : String.length (String.substring 0 n s) <= n.
Proof. revert s. induction n as [|n IH]; intros [|x s]; simpl; auto; [lia|]. specialize (IH s). lia. Qed.

Lemma length_sapp a b : String.length (a ++ b) = String.length a + String.length b.
Proof. induction a as [|x a IH]; simpl; auto. Qed.

Definition text (l : list string) : string := fold_right append "" l.

Lemma text_app l m : text (l ++ m)%list = text l ++ text m.
Proof. induction l as [|x l IH]; simpl; auto. rewrite IH, sapp_assoc. auto. Qed.

Lemma fold_text {A} (f : A -> string) l : forall s, fold_left (fun s x => s ++ f x) l s = s ++ text (map f l).
Proof.
  induction l as [|x l IH]; intros s; simpl; [rewrite sapp_nil; auto|]. rewrite IH, sapp_assoc. auto.
Qed.

Section Writer.
Context {val : Type}.
Variable value_to_str : val -> string.
Variable print_limit : nat.

Lemma rows_text content : table_rows_from_content value_to_str print_limit content
  = text (map (table_line value_to_str print_limit) content).
Proof. unfold table_rows_from_content. rewrite fold_text. auto. Qed.

Definition cell (v : val) : string := " " ++ string_in_table print_limit (value_to_str v) ++ " |".

Lemma line_text row : table_line value_to_str print_limit row = "|" ++ text (map cell row) ++ newline.
Proof.
  unfold table_line.
  change (fold_left (fun line value => line ++ cell value) row "|" ++ newline = "|" ++ text (map cell row) ++ newline).
  rewrite fold_text, sapp_assoc. auto.
Qed.

Lemma count_cell c v : c = "|"%char \/ c = ascii_of_nat 10 -> count c (value_to_str v) = 0 ->
  count c (cell v) = if Ascii.eqb c "|" then 1 else 0.
Proof.
  intros Hc H. unfold cell, string_in_table. rewrite !count_app.
  pose proof (count_substring c print_limit (value_to_str v)) as L. rewrite H in L.
  assert (count c (if print_limit <? String.length (value_to_str v) then "..." else "") = 0) as ->.
  { destruct (print_limit <? _), Hc as [E|E]; rewrite E; auto. }
  destruct Hc as [E|E]; rewrite E in *; simpl; lia.
Qed.

Lemma count_cells c row : c = "|"%char \/ c = ascii_of_nat 10 ->
  (forall v, In v row -> count c (value_to_str v) = 0) ->
  count c (text (map cell row)) = if Ascii.eqb c "|" then List.length row else 0.
Proof.
  intros Hc H. induction row as [|v row IH]; [simpl; destruct (Ascii.eqb c "|"); auto|].
  change (text (map cell (v :: row))) with (cell v ++ text (map cell row)).
  rewrite count_app, IH, count_cell; auto.
  - destruct (Ascii.eqb c "|"); auto.
  - apply H. simpl; auto.
  - intros w Hw. apply H. simpl; auto.
Qed.
End Writer.

Lemma nat_of_ascii_of n : n < 256 -> nat_of_ascii (ascii_of_nat n) = n.
Proof. apply nat_ascii_embedding. Qed.

(** Changing case does not make or remove the characters that are not letters. *)
Definition letter (c : ascii) : bool := in_range "a" "z" c || in_range "A" "Z" c.

Lemma eqb_case c d d' : letter c = false -> letter d = true -> letter d' = true -> Ascii.eqb c d = Ascii.eqb c d'.
Proof.
  intros H1 H2 H3. assert (Ascii.eqb c d = false) as -> by (apply Ascii.eqb_neq; congruence).
  symmetry. apply Ascii.eqb_neq. congruence.
Qed.

Lemma letter_upper d : in_range "a" "z" d = true -> letter (ascii_of_nat (nat_of_ascii d - 32)) = true.
Proof.
  unfold letter, in_range. intros H. apply andb_true_iff in H. rewrite !Nat.leb_le in H.
  assert (nat_of_ascii "a" = 97) as Ea by reflexivity. assert (nat_of_ascii "z" = 122) as Ez by reflexivity.
  assert (nat_of_ascii "A" = 65) as EA by reflexivity. assert (nat_of_ascii "Z" = 90) as EZ by reflexivity.
  apply orb_true_iff. right. rewrite andb_true_iff, !Nat.leb_le, nat_of_ascii_of by lia. lia.
Qed.

Lemma letter_lower d : in_range "A" "Z" d = true -> letter (ascii_of_nat (nat_of_ascii d + 32)) = true.
Proof.
  unfold letter, in_range. intros H. apply andb_true_iff in H. rewrite !Nat.leb_le in H.
  assert (nat_of_ascii "a" = 97) as Ea by reflexivity. assert (nat_of_ascii "z" = 122) as Ez by reflexivity.
  assert (nat_of_ascii "A" = 65) as EA by reflexivity. assert (nat_of_ascii "Z" = 90) as EZ by reflexivity.
  apply orb_true_iff. left. rewrite andb_true_iff, !Nat.leb_le, nat_of_ascii_of by lia. lia.
Qed.

Lemma eqb_upper c d : letter c = false -> Ascii.eqb c (upper d) = Ascii.eqb c d.
Proof.
  intros H. unfold upper. destruct (in_range "a" "z" d) eqn:E; auto. apply eqb_case; auto.
  - apply letter_upper. auto.
  - unfold letter. rewrite E. auto.
Qed.

Lemma eqb_lower c d : letter c = false -> Ascii.eqb c (lower d) = Ascii.eqb c d.
Proof.
  intros H. unfold lower. destruct (in_range "A" "Z" d) eqn:E; auto. apply eqb_case; auto.
  - apply letter_lower. auto.
  - unfold letter. rewrite E. apply orb_true_r.
Qed.

Lemma count_map_lower c s : letter c = false -> count c (map_string lower s) = count c s.
Proof. intros H. induction s as [|d s IH]; simpl; auto. rewrite eqb_lower, IH; auto. Qed.

Lemma count_capitalize c s : letter c = false -> count c (capitalize s) = count c s.
Proof. intros H. destruct s as [|d s]; simpl; auto. rewrite eqb_upper, count_map_lower; auto. Qed.

Lemma count_join c sep l : (forall s, In s l -> count c s = 0) ->
  count c (join sep l) = (List.length l - 1) * count c sep.
Proof.
  unfold join. induction l as [|x [|y l] IH]; intros H; simpl; auto.
  - apply H. simpl; auto.
  - rewrite !count_app. rewrite (H x) by (simpl; auto).
    assert (count c (String.concat sep (y :: l)) = (List.length (y :: l) - 1) * count c sep) as E.
    { apply IH. intros s Hs. apply H. simpl; auto. }
    simpl in E. rewrite E. lia.
Qed.

Lemma count_repeat c s n : count c (repeat_string s n) = n * count c s.
Proof. induction n as [|n IH]; simpl; auto. rewrite count_app, IH. auto. Qed.

Lemma count_nat_str c n : (forall d, In d ["0"; "1"; "2"; "3"; "4"; "5"; "6"; "7"; "8"; "9"]%char -> c <> d) ->
  count c (nat_str n) = 0.
Proof.
  intros H. unfold nat_str.
  assert (E : forall d, In d ["0"; "1"; "2"; "3"; "4"; "5"; "6"; "7"; "8"; "9"]%char -> Ascii.eqb c d = false).
  { intros d Hd. apply Ascii.eqb_neq, H. auto. }
  assert (G : forall u, count c (NilEmpty.string_of_uint u) = 0).
  { induction u; simpl; auto; rewrite IHu, E by (simpl; tauto); auto. }
  unfold NilZero.string_of_uint. destruct (Nat.to_uint n); try apply G.
  simpl. rewrite E by (simpl; tauto). auto.
Qed.

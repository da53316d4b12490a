(** C39: Markdown tables. *)
From Coq Require Import Ascii String List Bool Arith Lia.
From Verif Require Import Base TableModel TableProofs.
Import ListNotations.
Open Scope list_scope.
Open Scope string_scope.
Open Scope nat_scope.

(** A table prints rows, and says how many it does not print. *)
Inductive item {row : Type} := Row (r : row) | Unprinted (n : nat).
Arguments item : clear implicits.

Definition pipe : ascii := "|"%char.
Definition line_feed : ascii := ascii_of_nat 10.

Section C39.
Context {val : Type}.
Variable value_to_str : val -> string.
Variable print_limit : nat.

Definition shown (i : item (list val)) : string :=
  match i with
  | Row r => table_line value_to_str print_limit r
  | Unprinted n => "| + " ++ nat_str n ++ " unprinted elements | |" ++ newline
  end.

(** the content of the table is these items, in this order *)
Definition prints (limit : option nat) (content : list (list val)) (items : list (item (list val))) : Prop :=
  content_table value_to_str print_limit limit content = fold_right append "" (map shown items).

Lemma shown_rows content : text (map shown (map Row content)) = table_rows_from_content value_to_str print_limit content.
Proof. rewrite rows_text, map_map. auto. Qed.

(** Without a limit, or when there are at most half as many rows as the limit, every row is
    printed once. *)
Theorem C39_all : forall limit content,
  match limit with None => True | Some l => List.length content <= l / 2 end ->
  prints limit content (map Row content).
Proof.
  intros [l|] content H; unfold prints; fold (text (map shown (map Row content))); rewrite shown_rows; unfold content_table; auto.
  assert (H2 : 2 * (l / 2) <= l) by (apply Nat.mul_div_le; lia).
  rewrite firstn_all2 by lia.
  destruct (Nat.ltb_spec 1 l); auto.
  destruct (Nat.ltb_spec l (List.length content)); [lia|].
  destruct (Nat.ltb_spec (l / 2) (List.length content)); [lia|]. auto.
Qed.

Lemma last_rows_app (a b : list (list val)) n : List.length b = n -> 0 < n -> last_rows n (a ++ b)%list = b.
Proof.
  intros E H. unfold last_rows. destruct (Nat.eqb_spec n 0); [lia|].
  rewrite app_length. replace (List.length a + List.length b - n) with (List.length a) by lia.
  rewrite skipn_app, skipn_all, Nat.sub_diag. auto.
Qed.

(** More rows than an even limit: the first and the last rows are printed once each,
    half of the limit on each side, and the number of rows in between is announced. *)
Theorem C39_long : forall half first middle last, 0 < half ->
  List.length first = half -> List.length last = half -> middle <> [] ->
  prints (Some (2 * half)) (first ++ middle ++ last)
    (map Row first ++ [Unprinted (List.length middle)] ++ map Row last).
Proof.
  intros half first middle last Hh Hf Hl Hm. unfold prints. fold (text (map shown (map Row first ++ [Unprinted (List.length middle)] ++ map Row last))).
  rewrite map_app, text_app, shown_rows. rewrite map_app, text_app, shown_rows.
  assert (0 < List.length middle) by (destruct middle; simpl; [congruence|lia]).
  unfold content_table. replace (2 * half / 2) with half by (rewrite Nat.mul_comm, Nat.div_mul; lia).
  rewrite !app_length.
  destruct (Nat.ltb_spec 1 (2 * half)); [|lia].
  destruct (Nat.ltb_spec (2 * half) (List.length first + (List.length middle + List.length last))); [|lia].
  destruct (Nat.ltb_spec half (List.length first + (List.length middle + List.length last))); [|lia].
  replace (List.length first + (List.length middle + List.length last) - 2 * half) with (List.length middle) by lia.
  rewrite firstn_app. replace (half - List.length first) with 0 by lia. rewrite firstn_all2 by lia. simpl firstn.
  rewrite app_nil_r. rewrite app_assoc, last_rows_app by lia.
  rewrite !sapp_assoc. cbn [map text fold_right shown]. unfold text, shown. cbn [fold_right]. rewrite !sapp_assoc. auto.
Qed.

(** As many rows as an even limit: every row once. *)
Theorem C39_full : forall half content, 0 < half -> List.length content = 2 * half ->
  prints (Some (2 * half)) content (map Row content).
Proof.
  intros half content Hh Hl. unfold prints. fold (text (map shown (map Row content))). rewrite shown_rows.
  unfold content_table. replace (2 * half / 2) with half by (rewrite Nat.mul_comm, Nat.div_mul; lia).
  destruct (Nat.ltb_spec 1 (2 * half)); [|lia].
  destruct (Nat.ltb_spec (2 * half) (List.length content)); [lia|].
  destruct (Nat.ltb_spec half (List.length content)); [|lia].
  unfold last_rows. destruct (Nat.eqb_spec half 0); [lia|].
  replace (List.length content - half) with half by lia.
  rewrite !rows_text, <- text_app, <- map_app, firstn_skipn. auto.
Qed.

(** In between rows are printed twice: the ones in the middle. *)
Theorem C39_twice_refuted : forall half first middle last,
  middle <> [] -> last <> [] -> List.length (first ++ middle) = half -> List.length (middle ++ last) = half ->
  prints (Some (2 * half)) (first ++ middle ++ last)
    (map Row first ++ map Row middle ++ map Row middle ++ map Row last).
Proof.
  intros half first middle last Hm Hl H1 H2. unfold prints.
  fold (text (map shown (map Row first ++ map Row middle ++ map Row middle ++ map Row last))).
  rewrite <- !map_app, shown_rows.
  rewrite app_length in H1, H2.
  assert (0 < List.length middle) by (destruct middle; simpl; [congruence|lia]).
  assert (0 < List.length last) by (destruct last; simpl; [congruence|lia]).
  unfold content_table. replace (2 * half / 2) with half by (rewrite Nat.mul_comm, Nat.div_mul; lia).
  rewrite !app_length.
  destruct (Nat.ltb_spec 1 (2 * half)); [|lia].
  destruct (Nat.ltb_spec (2 * half) (List.length first + (List.length middle + List.length last))); [lia|].
  destruct (Nat.ltb_spec half (List.length first + (List.length middle + List.length last))); [|lia].
  rewrite last_rows_app by (rewrite ?app_length; lia).
  rewrite app_assoc, firstn_app. rewrite app_length.
  replace (half - (List.length first + List.length middle)) with 0 by lia.
  rewrite firstn_all2 by (rewrite app_length; lia). simpl firstn. rewrite app_nil_r.
  rewrite !rows_text, <- text_app, <- map_app. rewrite <- !app_assoc. auto.
Qed.

(** With an odd limit one row more than announced is left out; with exactly as many rows
    as the limit it is left out without a word; a limit of 1 or 0 prints nothing. *)
Theorem C39_odd_refuted :
  (forall half first middle last, 0 < half -> List.length first = half -> List.length last = half ->
     1 < List.length middle ->
     prints (Some (2 * half + 1)) (first ++ middle ++ last)
       (map Row first ++ [Unprinted (List.length middle - 1)] ++ map Row last))
  /\ (forall half first r last, 0 < half -> List.length first = half -> List.length last = half ->
     prints (Some (2 * half + 1)) (first ++ [r] ++ last) (map Row first ++ map Row last))
  /\ (forall content limit, limit <= 1 -> prints (Some limit) content []).
Proof.
  split; [|split].
  - intros half first middle last Hh Hf Hl Hm. unfold prints.
    fold (text (map shown (map Row first ++ [Unprinted (List.length middle - 1)] ++ map Row last))).
    rewrite map_app, text_app, shown_rows. rewrite map_app, text_app, shown_rows.
    unfold content_table. replace ((2 * half + 1) / 2) with half by (apply Nat.div_unique with 1; lia).
    rewrite !app_length.
    destruct (Nat.ltb_spec 1 (2 * half + 1)); [|lia].
    destruct (Nat.ltb_spec (2 * half + 1) (List.length first + (List.length middle + List.length last))); [|lia].
    destruct (Nat.ltb_spec half (List.length first + (List.length middle + List.length last))); [|lia].
    replace (List.length first + (List.length middle + List.length last) - (2 * half + 1)) with (List.length middle - 1) by lia.
    rewrite firstn_app. replace (half - List.length first) with 0 by lia. rewrite firstn_all2 by lia. simpl firstn.
    rewrite app_nil_r. rewrite app_assoc, last_rows_app by lia.
    rewrite !sapp_assoc. cbn [map text fold_right shown]. unfold text, shown. cbn [fold_right]. rewrite !sapp_assoc. auto.
  - intros half first r last Hh Hf Hl. unfold prints.
    fold (text (map shown (map Row first ++ map Row last))).
    rewrite map_app, text_app, !shown_rows.
    unfold content_table. replace ((2 * half + 1) / 2) with half by (apply Nat.div_unique with 1; lia).
    rewrite !app_length. simpl List.length.
    destruct (Nat.ltb_spec 1 (2 * half + 1)); [|lia].
    destruct (Nat.ltb_spec (2 * half + 1) (List.length first + (1 + List.length last))); [lia|].
    destruct (Nat.ltb_spec half (List.length first + (1 + List.length last))); [|lia].
    rewrite firstn_app. replace (half - List.length first) with 0 by lia. rewrite firstn_all2 by lia. simpl firstn.
    rewrite app_nil_r. rewrite (app_assoc first [r] last), last_rows_app by lia. auto.
  - intros content limit H. unfold prints, content_table.
    destruct limit as [|[|limit]]; [reflexivity|reflexivity|lia].
Qed.

(** ** Cells and columns *)

(** A cell is cut after [print_limit] characters, and only then ends with dots. *)
Theorem C39_cell : forall s,
  (String.length s <= print_limit -> string_in_table print_limit s = s)
  /\ (print_limit < String.length s ->
        string_in_table print_limit s = String.substring 0 print_limit s ++ "...")
  /\ String.length (string_in_table print_limit s) <= print_limit + 3.
Proof.
  intros s. unfold string_in_table. destruct (Nat.ltb_spec print_limit (String.length s)) as [H|H].
  - split; [intros; lia|]. split; auto. rewrite length_sapp. pose proof (length_substring print_limit s). simpl. lia.
  - split; [intros; rewrite substring_all, sapp_nil; auto|]. split; [intros; lia|].
    rewrite substring_all, sapp_nil by auto. lia.
Qed.

(** A line has one more separator than its row has values, and is one line, when no value
    is printed with a separator or a line feed (they are not escaped). *)
Theorem C39_line : forall row,
  (forall v, In v row -> count pipe (value_to_str v) = 0 /\ count line_feed (value_to_str v) = 0) ->
  count pipe (table_line value_to_str print_limit row) = S (List.length row)
  /\ count line_feed (table_line value_to_str print_limit row) = 1.
Proof.
  intros row H. rewrite line_text. split.
  - change (count pipe ("|" ++ text (map (cell value_to_str print_limit) row) ++ newline))
      with (S (count pipe (text (map (cell value_to_str print_limit) row) ++ newline))).
    rewrite count_app, count_cells; [simpl; lia|left; auto|]. intros v Hv. apply H. auto.
  - change (count line_feed ("|" ++ text (map (cell value_to_str print_limit) row) ++ newline))
      with (count line_feed (text (map (cell value_to_str print_limit) row) ++ newline)).
    rewrite count_app, count_cells; [simpl; lia|right; auto|]. intros v Hv. apply H. auto.
Qed.

Theorem C39_escape_refuted : forall v, count pipe (string_in_table print_limit (value_to_str v)) > 0 ->
  count pipe (table_line value_to_str print_limit [v]) > 2.
Proof.
  intros v H. rewrite line_text. cbn [map]. unfold cell, text. cbn [fold_right].
  rewrite !count_app. change (count pipe "|") with 1. change (count pipe " |") with 1. lia.
Qed.
End C39.

(** The header is two lines with as many columns as there are names. *)
Theorem C39_head : forall names, names <> [] ->
  (forall s, In s names -> count pipe s = 0 /\ count line_feed s = 0) ->
  exists titles rule, head_table names = titles ++ newline ++ rule ++ newline
  /\ count pipe titles = S (List.length names) /\ count pipe rule = S (List.length names)
  /\ count line_feed titles = 0 /\ count line_feed rule = 0.
Proof.
  intros names Hne H. exists ("| " ++ join " | " (map capitalize names) ++ " |"),
    (repeat_string "| ------ " (List.length names) ++ "|").
  split; [unfold head_table; rewrite !sapp_assoc; reflexivity|].
  assert (J : forall c, (forall s, In s names -> count c s = 0) -> letter c = false ->
    count c (join " | " (map capitalize names)) = (List.length names - 1) * count c " | ").
  { intros c Hc Lc. rewrite count_join; [rewrite map_length; auto|].
    intros s Hs. apply in_map_iff in Hs. destruct Hs as (s' & <- & Hs'). rewrite count_capitalize; auto. }
  assert (0 < List.length names) by (destruct names; simpl; [congruence|lia]).
  rewrite !count_app, !count_repeat.
  rewrite (J pipe) by (try reflexivity; intros; apply H; auto).
  rewrite (J line_feed) by (try reflexivity; intros; apply H; auto).
  simpl count. repeat split; lia.
Qed.

(** The line that announces unprinted rows always has two columns: in a table with
    another number of columns it does not fit. *)
Theorem C39_announcement_columns_refuted : forall n,
  count pipe ("| + " ++ nat_str n ++ " unprinted elements | |" ++ newline) = 3.
Proof.
  intros n. rewrite !count_app. rewrite count_nat_str; [reflexivity|].
  intros d Hd. unfold pipe. simpl in Hd. intuition (subst; discriminate).
Qed.

Print Assumptions C39_all.
Print Assumptions C39_long.
Print Assumptions C39_full.
Print Assumptions C39_twice_refuted.
Print Assumptions C39_odd_refuted.
Print Assumptions C39_cell.
Print Assumptions C39_line.
Print Assumptions C39_escape_refuted.
Print Assumptions C39_head.
Print Assumptions C39_announcement_columns_refuted.

(** ** Examples *)

Example C39_long_example :
  content_table (fun s => s) 25 (Some 4) [["a"; "1"]; ["b"; "2"]; ["c"; "3"]; ["d"; "4"]; ["e"; "5"]]
  = "| a | 1 |" ++ newline ++ "| b | 2 |" ++ newline ++ "| + 1 unprinted elements | |" ++ newline
    ++ "| d | 4 |" ++ newline ++ "| e | 5 |" ++ newline.
Proof. reflexivity. Qed.

(** three rows and a limit of four: the second one twice *)
Example C39_twice_example :
  content_table (fun s => s) 25 (Some 4) [["a"]; ["b"]; ["c"]]
  = "| a |" ++ newline ++ "| b |" ++ newline ++ "| b |" ++ newline ++ "| c |" ++ newline.
Proof. reflexivity. Qed.

Example C39_cell_example :
  string_in_table 5 "abcdefgh" = "abcde..." /\ string_in_table 5 "abc" = "abc".
Proof. split; reflexivity. Qed.

Example C39_table_example :
  matrix_table (fun s => s) 25 (Some 12) [["x"; "int"; "3"]] ["attribute"; "type"; "value"]
  = "| Attribute | Type | Value |" ++ newline ++ "| ------ | ------ | ------ |" ++ newline
    ++ "| x | int | 3 |" ++ newline.
Proof. reflexivity. Qed.

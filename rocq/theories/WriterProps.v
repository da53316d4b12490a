(** C88: Word documents written piece by piece. *)
From Coq Require Import ZArith List Bool Arith Lia String.
From Verif Require Import Base WriterModel WriterSpec WriterProofs.
Import ListNotations.
Open Scope list_scope.
Open Scope nat_scope.

Section Writer.
Variable text : Type.
Variable empty : text.
Variable style : Type.
Notation Heading := (Heading text style).
Notation Paragraph := (Paragraph text style).
Notation Table := (Table text style).
Notation add_to_document := (table_add_to_document text empty style).

(** Each cell of a table has the text of the last row that reaches it, the others are empty. *)
Theorem C88_cells : forall rows row d, nth_error rows 0 = Some row -> fit (List.length row) rows ->
  exists cells, add_to_document rows d = Ok (d ++ [Table (List.length row) cells]) /\
    List.length cells = List.length rows * List.length row /\
    (forall k t, last_writer (List.length row) rows k t -> nth_error cells k = Some t) /\
    (forall k, k < List.length rows * List.length row -> (forall i t, ~ reaches (List.length row) rows i k t) -> nth_error cells k = Some empty).
Proof.
  intros rows row d E F. destruct rows as [|row' rows]; [discriminate|]. injection E as ->. unfold table_add_to_document.
  set (all := row :: rows) in *. set (n := List.length row) in *.
  destruct (write_rows_ok text n all 0 (repeat empty (List.length all * n))) as (c & -> & L & H1 & H2).
  { intros i r Ei N. rewrite repeat_length. apply (F i r Ei N). }
  rewrite repeat_length in L. exists c. split; [reflexivity|]. split; [exact L|]. split.
  - intros k t (i & R & N). apply (H1 k i t R N).
  - intros k K N. rewrite H2 by exact N. apply nth_error_repeat. exact K.
Qed.

(** When no row is longer than the first one, the table has the texts of rows, and empty cells after them. *)
Theorem C88_table : forall rows row d, nth_error rows 0 = Some row -> (forall r, In r rows -> List.length r <= List.length row) ->
  exists cells, add_to_document rows d = Ok (d ++ [Table (List.length row) cells]) /\
    forall i j r, nth_error rows i = Some r -> j < List.length row ->
      nth_error cells (i * List.length row + j) = Some (nth j r empty).
Proof.
  intros rows row d E S. set (n := List.length row) in *.
  assert (B : forall i r, nth_error rows i = Some r -> List.length r <= n /\ i < List.length rows).
  { intros i r H. split; [apply S; eapply nth_error_In; exact H|]. apply nth_error_Some. congruence. }
  destruct (C88_cells rows row d E) as (c & H & L & W & Em).
  { intros i r H _. fold n. destruct (B i r H) as [A C]. nia. }
  fold n in H, L, W, Em. exists c. split; [exact H|]. intros i j r Hi Hj. destruct (B i r Hi) as [A C].
  assert (O : forall i' t', reaches n rows i' (i * n + j) t' -> i' = i).
  { intros i' t' (r' & Hr & M & Ht). destruct (B i' r' Hr) as [A' _].
    assert (i * n + j - i' * n < List.length r') by (apply nth_error_Some; congruence). destruct (Nat.lt_trichotomy i' i) as [K|[K|K]]; [nia|auto|nia]. }
  destruct (nth_error r j) as [t|] eqn:Ht.
  - rewrite (nth_error_nth _ _ _ Ht). apply W. exists i. split.
    + exists r. split; [exact Hi|]. split; [lia|]. replace (i * n + j - i * n) with j by lia. exact Ht.
    + intros i' t' K R. apply O in R. lia.
  - rewrite nth_overflow by (apply nth_error_None; exact Ht). apply Em; [nia|]. intros i' t' R. pose proof (O _ _ R). subst.
    destruct R as (r' & Hr & _ & R). rewrite Hi in Hr. injection Hr as <-. replace (i * n + j - i * n) with j in R by lia. congruence.
Qed.

(** A longer row goes on in the next line, where the next row does not write over it. *)
Theorem C88_longer_refuted : forall rows row d i r r' j t, nth_error rows 0 = Some row -> fit (List.length row) rows ->
  nth_error rows i = Some r -> nth_error r (List.length row + j) = Some t -> j < List.length row ->
  nth_error rows (S i) = Some r' -> List.length r' <= j ->
  exists cells, add_to_document rows d = Ok (d ++ [Table (List.length row) cells]) /\ nth_error cells (S i * List.length row + j) = Some t.
Proof.
  intros rows row d i r r' j t E F Hi Ht Hj Hi' L'. destruct (C88_cells rows row d E F) as (c & H & _ & W & _). exists c. split; [exact H|].
  apply W. set (n := List.length row) in *. exists i. split.
  - exists r. split; [exact Hi|]. split; [cbn; lia|]. replace (S i * n + j - i * n) with (n + j) by (cbn; lia). exact Ht.
  - intros i' t' K (r'' & Hr & M & R). destruct (Nat.eq_dec i' (S i)) as [->|D].
    + rewrite Hi' in Hr. injection Hr as <-. replace (S i * n + j - S i * n) with j in R by lia. apply nth_error_None in L'. congruence.
    + assert (S (S i) * n <= i' * n) by (apply Nat.mul_le_mono_r; lia). cbn in *. lia.
Qed.

(** A row that goes beyond the table, as a longer last row does, is an error; no row also. *)
Theorem C88_beyond_refuted : forall rows row d i r, nth_error rows 0 = Some row -> nth_error rows i = Some r -> r <> [] ->
  List.length rows * List.length row < i * List.length row + List.length r -> add_to_document rows d = Err IndexError.
Proof.
  intros rows row d i r E Hi N L. destruct rows as [|row' rows]; [discriminate|]. injection E as ->. unfold table_add_to_document.
  rewrite (write_rows_err text _ _ 0 _ i r Hi N); [reflexivity|]. rewrite repeat_length. exact L.
Qed.
Theorem C88_no_row : forall d, add_to_document [] d = Err IndexError.
Proof. reflexivity. Qed.

Definition heading_item (h : text * nat) := Heading (fst h) (snd h).

Lemma loop_spec : forall ps hs d, Forall (fun h => snd h <= 9) (firstn (List.length ps) hs) ->
  paragraphs_loop text style true ps hs d
  = Ok (skipn (List.length ps) hs,
        d ++ flat_map (fun hp => [heading_item (fst hp); Paragraph (snd hp)]) (combine hs ps)
          ++ map Paragraph (skipn (List.length hs) ps)).
Proof.
  induction ps as [|p ps IH]; intros hs d F; cbn [paragraphs_loop List.length].
  - rewrite skipn_nil. destruct hs; cbn; rewrite app_nil_r; reflexivity.
  - destruct hs as [|h hs].
    + rewrite IH by (rewrite firstn_nil; constructor). rewrite skipn_nil. cbn. rewrite <- app_assoc. reflexivity.
    + cbn in F. inversion F as [|? ? Lh F']; subst. unfold document_add_heading. apply Nat.leb_le in Lh. rewrite Lh. cbn [bind].
      rewrite IH by exact F'. cbn. rewrite <- !app_assoc. reflexivity.
Qed.

(** Each paragraph comes after its heading, those after the last heading have none, and the headings after the last
    paragraph are kept, not written. *)
Theorem C88_paragraphs : forall w, Forall (fun h => snd h <= 9) (firstn (List.length (paragraphs _ _ w)) (headings _ _ w)) ->
  exists w', add_paragraphs text style true w = Ok w' /\
    body _ _ w' = body _ _ w ++ flat_map (fun hp => [heading_item (fst hp); Paragraph (snd hp)]) (combine (headings _ _ w) (paragraphs _ _ w))
                ++ map Paragraph (skipn (List.length (headings _ _ w)) (paragraphs _ _ w)) /\
    headings _ _ w' = skipn (List.length (paragraphs _ _ w)) (headings _ _ w) /\
    paragraphs _ _ w' = paragraphs _ _ w /\ tables _ _ w' = tables _ _ w.
Proof. intros w F. unfold add_paragraphs. rewrite loop_spec by exact F. eexists. split; [reflexivity|]. repeat split. Qed.

(** Without headings *)
Theorem C88_paragraphs_only : forall w,
  exists w', add_paragraphs text style false w = Ok w' /\ body _ _ w' = body _ _ w ++ map Paragraph (paragraphs _ _ w) /\
    headings _ _ w' = headings _ _ w /\ paragraphs _ _ w' = paragraphs _ _ w /\ tables _ _ w' = tables _ _ w.
Proof.
  intros w. unfold add_paragraphs.
  assert (E : forall ps hs d, paragraphs_loop text style false ps hs d = Ok (hs, d ++ map Paragraph ps)).
  { induction ps as [|p ps IH]; intros hs d; cbn [paragraphs_loop map]; [rewrite app_nil_r; reflexivity|].
    destruct hs; rewrite IH, <- app_assoc; reflexivity. }
  rewrite E. cbn. eexists. repeat split.
Qed.

Lemma headings_fold : forall hs d, Forall (fun h => snd h <= 9) hs ->
  foldM (fun d h => document_add_heading text style h d) hs d = Ok (d ++ map heading_item hs).
Proof.
  induction hs as [|h hs IH]; intros d F; cbn [foldM map]; [rewrite app_nil_r; reflexivity|]. inversion F as [|? ? L F']; subst.
  unfold document_add_heading at 1. apply Nat.leb_le in L. rewrite L. cbn [bind]. rewrite IH by exact F'. rewrite <- app_assoc. reflexivity.
Qed.

(** Headings are written and kept: a heading written by add_headings is written again with its paragraph. *)
Theorem C88_headings : forall page_break w, Forall (fun h => snd h <= 9) (headings _ _ w) ->
  exists w', add_headings text style page_break w = Ok w' /\
    body _ _ w' = body _ _ w ++ map heading_item (headings _ _ w) ++ (if page_break : bool then [PageBreak text style] else []) /\
    headings _ _ w' = headings _ _ w /\ paragraphs _ _ w' = paragraphs _ _ w /\ tables _ _ w' = tables _ _ w.
Proof.
  intros b w F. unfold add_headings. rewrite headings_fold by exact F. cbn [bind]. destruct b.
  - eexists. split; [reflexivity|]. cbn. rewrite <- app_assoc. repeat split.
  - eexists. split; [reflexivity|]. cbn. rewrite app_nil_r. repeat split.
Qed.

(** A heading of more than nine levels is an error. *)
Theorem C88_level : forall page_break w, Exists (fun h => 9 < snd h) (headings _ _ w) -> add_headings text style page_break w = Err ValueError.
Proof.
  intros b w X. unfold add_headings. revert X. generalize (body _ _ w) as d. induction (headings _ _ w) as [|h hs IH]; intros d X; [inversion X|].
  cbn [foldM]. unfold document_add_heading at 1. destruct (snd h <=? 9) eqn:E; [|reflexivity]. cbn [bind]. apply IH. inversion X; [|assumption].
  apply Nat.leb_le in E. lia.
Qed.

(** All tables are written, each with an empty paragraph after it. *)
Theorem C88_all_tables : forall w ts k, tables _ _ w = Some ts ->
  (forall t, In t ts -> exists row, nth_error t 0 = Some row /\ fit (List.length row) t) ->
  exists w' l, add_table text empty style true k w = Ok w' /\ body _ _ w' = body _ _ w ++ flat_map (fun t => [t; Paragraph empty]) l /\
    Forall2 (fun t it => add_to_document t [] = Ok [it]) ts l /\
    headings _ _ w' = headings _ _ w /\ paragraphs _ _ w' = paragraphs _ _ w /\ tables _ _ w' = tables _ _ w.
Proof.
  intros w ts k T F. unfold add_table. rewrite T. cbn [of_option bind].
  assert (E : exists l, foldM (fun d t => let* d := add_to_document t d in Ok (d ++ [Paragraph empty])) ts (body _ _ w)
    = Ok (body _ _ w ++ flat_map (fun t => [t; Paragraph empty]) l) /\ Forall2 (fun t it => add_to_document t [] = Ok [it]) ts l).
  { clear T. generalize (body _ _ w) as d. induction ts as [|t ts IH]; intros d.
    - exists []. cbn. rewrite app_nil_r. split; [reflexivity|constructor].
    - destruct (F t (or_introl eq_refl)) as (row & E & Ft). destruct (C88_cells t row [] E Ft) as (c & H & _).
      assert (H' : add_to_document t d = Ok (d ++ [Table (List.length row) c])).
      { revert H. unfold table_add_to_document. destruct t as [|r t]; [discriminate|]. destruct (write_rows _ _ _ _ _); cbn; [|discriminate].
        intros K. injection K as K1 K2. rewrite K1, K2. reflexivity. }
      destruct (IH (fun t' I => F t' (or_intror I)) ((d ++ [Table (List.length row) c]) ++ [Paragraph empty])) as (l & E' & G).
      exists (Table (List.length row) c :: l). cbn [foldM]. rewrite H'. cbn [bind]. rewrite E'. split; [|constructor; [exact H|exact G]].
      cbn. rewrite <- !app_assoc. reflexivity. }
  destruct E as (l & -> & G). cbn [bind]. eexists. exists l. split; [reflexivity|]. repeat split; auto.
Qed.

(** One table, chosen by its number, also from the end. *)
Theorem C88_one_table : forall w ts k t d, tables _ _ w = Some ts -> py_get ts k = Ok t -> add_to_document t (body _ _ w) = Ok d ->
  exists w', add_table text empty style false k w = Ok w' /\ body _ _ w' = d /\
    headings _ _ w' = headings _ _ w /\ paragraphs _ _ w' = paragraphs _ _ w /\ tables _ _ w' = tables _ _ w.
Proof. intros w ts k t d T G E. unfold add_table. rewrite T. cbn [of_option bind]. rewrite G. cbn [bind]. rewrite E. eexists. split; [reflexivity|]. repeat split; exact T. Qed.

(** Without tables, an error. *)
Theorem C88_no_tables : forall w all k, tables _ _ w = None -> add_table text empty style all k w = Err TypeError.
Proof. intros w all k T. unfold add_table. rewrite T. destruct all; reflexivity. Qed.

(** List items and page breaks come at the end. *)
Theorem C88_ends : forall w items s n,
  body _ _ (add_list_items text style items s w) = body _ _ w ++ map (fun t => ListItem text style t s) items /\
  body _ _ (add_page_breaks text style n w) = body _ _ w ++ repeat (PageBreak text style) n.
Proof. intros; split; reflexivity. Qed.
End Writer.

Print Assumptions C88_cells.
Print Assumptions C88_table.
Print Assumptions C88_longer_refuted.
Print Assumptions C88_beyond_refuted.
Print Assumptions C88_no_row.
Print Assumptions C88_paragraphs.
Print Assumptions C88_paragraphs_only.
Print Assumptions C88_headings.
Print Assumptions C88_level.
Print Assumptions C88_all_tables.
Print Assumptions C88_one_table.
Print Assumptions C88_no_tables.
Print Assumptions C88_ends.

(** ** Examples *)
Local Open Scope string_scope.
Definition ex_table (rows : list (list string)) := table_add_to_document string "" unit rows [].
Example C88_table_ex : ex_table [["a"; "b"]; ["c"]; ["d"; "e"]] = Ok [Table _ _ 2 ["a"; "b"; "c"; ""; "d"; "e"]].
Proof. reflexivity. Qed.
Example C88_longer_ex : ex_table [["a"; "b"]; ["c"; "d"; "e"]; []] = Ok [Table _ _ 2 ["a"; "b"; "c"; "d"; "e"; ""]]
  /\ ex_table [["a"; "b"]; ["c"; "d"; "e"]; ["f"]] = Ok [Table _ _ 2 ["a"; "b"; "c"; "d"; "f"; ""]].
Proof. split; reflexivity. Qed.
Example C88_beyond_ex : ex_table [["a"; "b"]; ["c"; "d"; "e"]] = Err IndexError.
Proof. apply (C88_beyond_refuted _ _ _ [["a"; "b"]; ["c"; "d"; "e"]] ["a"; "b"] [] 1 ["c"; "d"; "e"]); try reflexivity; [discriminate|cbn; lia]. Qed.
Definition ex_writer : writer string unit :=
  {| paragraphs := ["one"; "two"]; headings := [("First", 1); ("Second", 2); ("Third", 1)]; tables := Some [[["x"]]; [["y"; "z"]]]; body := [] |}.
Example C88_paragraphs_ex : (let* w := add_paragraphs _ _ true ex_writer in Ok (body _ _ w, headings _ _ w))
  = Ok ([Heading _ _ "First" 1; Paragraph _ _ "one"; Heading _ _ "Second" 2; Paragraph _ _ "two"], [("Third", 1)]).
Proof. reflexivity. Qed.
Example C88_headings_ex : (let* w := add_headings _ _ true ex_writer in let* w := add_paragraphs _ _ false w in Ok (body _ _ w))
  = Ok [Heading _ _ "First" 1; Heading _ _ "Second" 2; Heading _ _ "Third" 1; PageBreak _ _; Paragraph _ _ "one"; Paragraph _ _ "two"].
Proof. reflexivity. Qed.
Example C88_all_tables_ex : (let* w := add_table _ "" _ true 0 ex_writer in Ok (body _ _ w))
  = Ok [Table _ _ 1 ["x"]; Paragraph _ _ ""; Table _ _ 2 ["y"; "z"]; Paragraph _ _ ""].
Proof. reflexivity. Qed.
Example C88_one_table_ex : (let* w := add_table _ "" _ false (-1) ex_writer in Ok (body _ _ w)) = Ok [Table _ _ 2 ["y"; "z"]].
Proof. reflexivity. Qed.
Example C88_level_ex : add_headings _ _ false {| paragraphs := []; headings := [("a", 10)]; tables := None; body := @nil (item string unit) |} = Err ValueError.
Proof. reflexivity. Qed.
Example C88_ends_ex : body _ _ (add_page_breaks _ _ 2 (add_list_items _ _ ["p"] tt ex_writer)) = [ListItem _ _ "p" tt; PageBreak _ _; PageBreak _ _].
Proof. reflexivity. Qed.

(** Lemmas for documents made from markdown. *)
From Coq Require Import Ascii String List Bool Arith Lia.
From Verif Require Import Base AnnotationModel AnnotationProofs DocstringModel DocstringSpec DocstringProofs DocxModel DocxSpec.
Import ListNotations.
Local Open Scope char_scope.
Local Open Scope list_scope.
Local Open Scope nat_scope.

(** ** Regular expressions *)
Lemma nullable_iff r : nullable r = true <-> described r [].
Proof.
  induction r as [| |f|a IHa b IHb|a IHa b IHb|a IHa]; cbn [nullable].
  - split; [discriminate|intros H; inversion H].
  - split; [constructor|reflexivity].
  - split; [discriminate|intros H; inversion H].
  - rewrite andb_true_iff, IHa, IHb. split.
    + intros [A B]. change (@nil ascii) with (@nil ascii ++ []). constructor; auto.
    + intros H. inversion H as [| |? ? s t A B E1 E2| | | |]; subst. apply app_eq_nil in E2. destruct E2; subst. auto.
  - rewrite orb_true_iff, IHa, IHb. split; [intros []; [apply In_left|apply In_right]; auto|intros H; inversion H; auto].
  - split; [constructor|reflexivity].
Qed.
Lemma star_first a s : described (Star a) s -> forall c t, s = c :: t ->
  exists t1 t2, t = t1 ++ t2 /\ described a (c :: t1) /\ described (Star a) t2.
Proof.
  intros H. remember (Star a) as r eqn:R. induction H as [| | | | |a'|a' s t A IHA B IHB]; try discriminate; intros c u E.
  - injection R as ->. destruct s as [|d s].
    + apply IHB; auto.
    + cbn in E. injection E as -> <-. exists s, t. auto.
Qed.
Lemma derivative_iff c r : forall s, described (derivative c r) s <-> described r (c :: s).
Proof.
  induction r as [| |f|a IHa b IHb|a IHa b IHb|a IHa]; intros s; cbn [derivative].
  - split; intros H; inversion H.
  - split; intros H; inversion H.
  - destruct (f c) eqn:F.
    + split; intros H; inversion H; subst; constructor; auto.
    + split; intros H; inversion H; subst; congruence.
  - assert (S1 : described (Seq (derivative c a) b) s -> described (Seq a b) (c :: s)).
    { intros H. inversion H as [| |? ? s1 t A B| | | |]; subst. change (c :: s1 ++ t) with ((c :: s1) ++ t). constructor; auto. apply IHa. auto. }
    destruct (nullable a) eqn:N.
    + split; intros H.
      * inversion H as [| | |? ? ? K|? ? ? K| |]; subst; auto. apply IHb in K. change (c :: s) with ([] ++ (c :: s)).
        constructor; auto. apply nullable_iff. auto.
      * inversion H as [| |? ? s1 t A B E1 E2| | | |]; subst. destruct s1 as [|d s1]; cbn in E2.
        -- subst t. apply In_right, IHb. auto.
        -- injection E2 as -> <-. apply In_left. constructor; auto. apply IHa. auto.
    + split; auto. intros H. inversion H as [| |? ? s1 t A B E1 E2| | | |]; subst. destruct s1 as [|d s1]; cbn in E2.
      * apply nullable_iff in A. congruence.
      * injection E2 as -> <-. constructor; auto. apply IHa. auto.
  - split; intros H; inversion H; subst; ((apply In_left; apply IHa; assumption) || (apply In_right; apply IHb; assumption)).
  - split; intros H.
    + inversion H as [| |? ? s1 t A B| | | |]; subst. change (c :: s1 ++ t) with ((c :: s1) ++ t). constructor; auto. apply IHa. auto.
    + destruct (star_first a _ H c s eq_refl) as (t1 & t2 & -> & A & B). constructor; auto. apply IHa. auto.
Qed.
Lemma matches_iff s : forall r, matches r s = true <-> described r s.
Proof.
  unfold matches. induction s as [|c s IH]; intros r; cbn [fold_left]; [apply nullable_iff|]. rewrite IH. apply derivative_iff.
Qed.
(** The characters of what is described *)
Fixpoint only (P : ascii -> Prop) (r : re) : Prop :=
  match r with
  | Void | Empty => True
  | One f => forall c, f c = true -> P c
  | Seq a b | Alt a b => only P a /\ only P b
  | Star a => only P a
  end.
Lemma only_described P r s : described r s -> only P r -> Forall P s.
Proof.
  intros H. induction H; cbn [only]; intros K; try constructor; auto; try (apply Forall_app; split); try tauto.
Qed.

Lemma rule_characters s : matches horizontal_line_pattern s = true -> Forall (fun c => white c \/ c = "-" \/ c = "|") s.
Proof.
  intros H. apply matches_iff in H. apply (only_described _ _ _ H).
  assert (W : forall c, is_space c = true -> white c \/ c = "-" \/ c = "|") by (intros c E; left; apply is_space_white; auto).
  assert (D : forall c, Ascii.eqb "-" c = true -> white c \/ c = "-" \/ c = "|") by (intros c E; apply Ascii.eqb_eq in E; auto).
  assert (B : forall c, Ascii.eqb "|" c = true -> white c \/ c = "-" \/ c = "|") by (intros c E; apply Ascii.eqb_eq in E; auto).
  cbn. repeat split; auto.
Qed.
Lemma described_any s : ~ In newline s -> described (Star (One (fun c => negb (Ascii.eqb c newline)))) s.
Proof.
  induction s as [|c s IH]; intros H; [constructor|]. change (c :: s) with ([c] ++ s). constructor.
  - constructor. apply negb_true_iff, Ascii.eqb_neq. intros ->. apply H. left; auto.
  - apply IH. intros K. apply H. right; auto.
Qed.
Lemma table_line_iff s : ~ In newline s -> (matches table_pattern s = true <-> exists m, s = "|" :: m ++ ["|"]).
Proof.
  intros NL. rewrite matches_iff. unfold table_pattern. cbn [seqs]. split.
  - intros H. inversion H as [| |? ? s1 t A B| | | |]; subst. inversion A as [|? c F| | | | |]; subst. apply Ascii.eqb_eq in F. subst c.
    inversion B as [| |? ? s2 t2 C D| | | |]; subst. inversion D as [| |? ? s3 t3 E F| | | |]; subst. inversion E as [|? c G| | | | |]; subst.
    apply Ascii.eqb_eq in G. subst c. inversion F; subst. exists s2. reflexivity.
  - intros [m ->]. change ("|" :: m ++ ["|"]) with (["|"] ++ (m ++ (["|"] ++ []))). constructor; [constructor; reflexivity|].
    constructor; [apply described_any; intros K; apply NL; right; apply in_or_app; auto|]. constructor; constructor. reflexivity.
Qed.

(** ** Texts *)
Lemma drop_while_keep f s : (forall c t, s = c :: t -> f c = false) -> drop_while f s = s.
Proof. destruct s as [|c s]; intros H; [reflexivity|]. cbn [drop_while]. rewrite (H c s eq_refl). reflexivity. Qed.
Lemma drop_while_app f a s : Forall (fun c => f c = true) a -> drop_while f (a ++ s) = drop_while f s.
Proof. induction 1 as [|c a H F IH]; [reflexivity|]. cbn [app drop_while]. rewrite H. apply IH. Qed.
Lemma strip_of_around f a s b : Forall (fun c => f c = true) a -> Forall (fun c => f c = true) b -> s <> [] ->
  (forall c t, s = c :: t -> f c = false) -> (forall c t, s = t ++ [c] -> f c = false) -> strip_of f (a ++ s ++ b) = s.
Proof.
  intros A B N F L. unfold strip_of. rewrite drop_while_app by auto. rewrite (drop_while_keep f (s ++ b)).
  - rewrite rev_app_distr, drop_while_app by (apply Forall_rev; auto). rewrite drop_while_keep, rev_involutive; [reflexivity|].
    intros c t E. apply (L c (rev t)). apply (f_equal (@rev ascii)) in E. rewrite rev_involutive in E. exact E.
  - intros c t E. destruct s as [|d s]; [congruence|]. injection E as -> _. eapply F. reflexivity.
Qed.
Lemma strip_is_strip_of s : strip s = strip_of is_space s. Proof. reflexivity. Qed.
Lemma strip_tidy s : tidy s -> strip s = s.
Proof.
  intros (N & _ & F & L). rewrite strip_is_strip_of. replace s with ([] ++ s ++ []) at 1 by (rewrite app_nil_r; reflexivity).
  apply strip_of_around; auto; intros c t E.
  - destruct (is_space c) eqn:K; auto. apply is_space_white in K. destruct (F c t E K).
  - destruct (is_space c) eqn:K; auto. apply is_space_white in K. destruct (L c t E K).
Qed.
Lemma split_on_none c s : ~ In c s -> split_on c s = [s].
Proof.
  induction s as [|d s IH]; intros H; [reflexivity|]. cbn [split_on]. destruct (Ascii.eqb_spec d c) as [->|N]; [exfalso; apply H; left; auto|].
  rewrite IH; [reflexivity|]. intros K. apply H. right; auto.
Qed.
Lemma split_on_first c s r : ~ In c s -> split_on c (s ++ c :: r) = s :: split_on c r.
Proof.
  induction s as [|d s IH]; intros H; cbn [app split_on].
  - rewrite Ascii.eqb_refl. reflexivity.
  - destruct (Ascii.eqb_spec d c) as [->|N]; [exfalso; apply H; left; auto|]. rewrite IH; [reflexivity|]. intros K. apply H. right; auto.
Qed.
Lemma split_on_join c l : l <> [] -> Forall (fun s => ~ In c s) l -> split_on c (join [c] l) = l.
Proof.
  intros N F. induction F as [|s l H F IH]; [congruence|]. cbn [join]. destruct l as [|t l]; [apply split_on_none; auto|].
  change (s ++ [c] ++ join [c] (t :: l)) with (s ++ c :: join [c] (t :: l)). rewrite split_on_first by auto. rewrite IH by discriminate. reflexivity.
Qed.
Lemma count_app c s t : count c (s ++ t) = count c s + count c t.
Proof. unfold count. rewrite filter_app, app_length. reflexivity. Qed.
Lemma count_none c s : ~ In c s -> count c s = 0.
Proof.
  unfold count. induction s as [|d s IH]; intros H; [reflexivity|]. cbn [filter]. destruct (Ascii.eqb_spec c d) as [->|N]; [exfalso; apply H; left; auto|].
  apply IH. intros K. apply H. right; auto.
Qed.
Lemma count_repeat c n : count c (repeat c n) = n.
Proof. unfold count. induction n as [|n IH]; [reflexivity|]. cbn [repeat filter]. rewrite Ascii.eqb_refl. cbn [List.length]. rewrite IH. reflexivity. Qed.
Lemma not_contains s : ~ occurs dashes s -> contains (chars "---") s = false.
Proof. intros H. destruct (contains (chars "---") s) eqn:C; auto. apply contains_iff in C. contradiction. Qed.
Lemma white_hash : ~ white "#". Proof. intros H. cbn in H. intuition discriminate. Qed.
Lemma white_bar : ~ white "|". Proof. intros H. cbn in H. intuition discriminate. Qed.

(** ** The lines of blocks *)
Lemma in_cells c cells : In c (List.concat (map (fun c => c ++ ["|"]) cells)) -> c = "|" \/ Exists (In c) cells.
Proof.
  induction cells as [|x cells IH]; cbn; [tauto|]. rewrite !in_app_iff. cbn. intros [[H|[H|[]]]|H]; auto. destruct (IH H); auto.
Qed.
Lemma row_line cells : cells <> [] -> line_of (Row cells) = ["|"] ++ join ["|"] cells ++ ["|"].
Proof.
  intros N. cbn [line_of app]. f_equal. induction cells as [|x cells IH]; [congruence|]. cbn [map List.concat join].
  destruct cells as [|y cells]; [cbn; rewrite app_nil_r; reflexivity|]. rewrite IH by discriminate. rewrite <- !app_assoc. reflexivity.
Qed.
Lemma rule_line n : 0 < n -> exists r, line_of (Rule n) = chars "| ------ " ++ r ++ ["|"] /\ ~ In newline r.
Proof.
  intros H. destruct n as [|n]; [lia|]. exists (List.concat (repeat (chars "| ------ ") n)). cbn [line_of repeat List.concat]. rewrite <- app_assoc.
  split; [reflexivity|]. intros K. clear H. induction n as [|n IH]; [destruct K|]. cbn [repeat List.concat] in K. apply in_app_or in K.
  destruct K as [K|K]; [|auto]. unfold newline in K. cbn in K. intuition discriminate.
Qed.
Lemma no_newline b : ordinary b -> ~ In newline (line_of b).
Proof.
  destruct b as [n t|t|cells|n|]; cbn [ordinary].
  - intros (_ & (_ & H & _) & _) K. cbn [line_of] in K. apply in_app_or in K. destruct K as [K|[K|K]]; [apply repeat_spec in K|..]; try discriminate. auto.
  - intros ((_ & H & _) & _). auto.
  - intros (F & _) K. cbn [line_of] in K. destruct K as [K|K]; [discriminate|]. apply in_cells in K. destruct K as [K|K]; [discriminate|].
    apply Exists_exists in K. destruct K as (x & I & K). rewrite Forall_forall in F. destruct (F x I) as (_ & _ & G). auto.
  - intros H. destruct (rule_line n H) as (r & -> & G). intros K. apply in_app_or in K. destruct K as [K|K]; [unfold newline in K; cbn in K; intuition discriminate|].
    apply in_app_or in K. destruct K as [K|[K|[]]]; [auto|discriminate].
  - auto.
Qed.
Lemma bars_tidy m : ~ In newline m -> tidy ("|" :: m ++ ["|"]).
Proof.
  intros H. split; [discriminate|]. split; [|split].
  - intros [K|K]; [discriminate|]. apply in_app_or in K. destruct K as [K|[K|[]]]; [auto|discriminate].
  - intros c t E. injection E as <- _. apply white_bar.
  - intros c t E. change ("|" :: m ++ ["|"]) with (("|" :: m) ++ ["|"]) in E. apply app_inj_tail in E. destruct E as [_ <-]. apply white_bar.
Qed.

Lemma first_tidy s : tidy s -> exists c t, s = c :: t /\ ~ white c.
Proof. intros (N & _ & F & _). destruct s as [|c s]; [congruence|]. exists c, s. split; auto. eapply F. reflexivity. Qed.

Definition parsed (b : block) : list heading * list element :=
  match b with
  | Title n t => ([Heading (" " :: t) n], [Paragraph (line_of b)])
  | Line t => ([], [Paragraph t])
  | Row cells => ([], [Table [cells]])
  | Rule _ | Blank => ([], [])
  end.
Lemma title_tidy n t : 0 < n -> tidy t -> tidy (line_of (Title n t)).
Proof.
  intros H (N & NL & F & L). cbn [line_of]. split; [destruct n; [lia|discriminate]|]. split; [|split].
  - intros K. apply in_app_or in K. destruct K as [K|[K|K]]; [apply repeat_spec in K|..]; try discriminate. auto.
  - intros c r E. destruct n; [lia|]. injection E as <- _. apply white_hash.
  - intros c r E. destruct (exists_last N) as (u & d & ->). rewrite app_comm_cons, app_assoc in E. apply app_inj_tail in E. destruct E as [_ <-].
    apply (L d u eq_refl).
Qed.
Lemma tidy_join cells c : In c (join ["|"] cells) -> c = "|" \/ Exists (In c) cells.
Proof.
  induction cells as [|x cells IH]; cbn [join]; [intros []|]. destruct cells as [|y cells]; [auto|]. rewrite !in_app_iff.
  intros [H|[[H|[]]|H]]; auto. destruct (IH H); auto.
Qed.
Lemma row_strip cells : cells <> [] -> Forall (fun c => c <> [] /\ ~ In "|" c /\ ~ In newline c) cells ->
  split_on "|" (strip_of (Ascii.eqb "|") (line_of (Row cells))) = cells.
Proof.
  intros N F. rewrite row_line by auto. rewrite strip_of_around.
  - apply split_on_join; auto. eapply Forall_impl; [|exact F]. intros a (_ & H & _); exact H.
  - repeat constructor.
  - repeat constructor.
  - destruct cells as [|x cells]; [congruence|]. inversion F as [|? ? [H _] _]; subst. cbn [join]. destruct cells; destruct x; try congruence; discriminate.
  - intros c t E. destruct cells as [|x cells]; [congruence|]. inversion F as [|? ? (H & B & _) _]; subst. destruct x as [|d x]; [congruence|].
    apply Ascii.eqb_neq. intros <-. apply B. cbn [join] in E. destruct cells; cbn in E; injection E as -> _; left; auto.
  - intros c t E. destruct (exists_last N) as (pre & x & ->). apply Forall_app in F. destruct F as [_ F]. inversion F as [|? ? (H & B & _) _]; subst.
    destruct (exists_last H) as (u & d & ->).
    assert (J : exists r, join ["|"] (pre ++ [u ++ [d]]) = r ++ [d]).
    { clear. induction pre as [|p pre IH]; [exists u; reflexivity|]. destruct IH as [r E]. cbn [app join]. rewrite E.
      destruct (pre ++ [u ++ [d]]) eqn:Q; [destruct pre; discriminate|]. exists (p ++ ["|"] ++ r). rewrite <- !app_assoc. reflexivity. }
    destruct J as [r J]. rewrite J in E. apply app_inj_tail in E. destruct E as [_ <-]. apply Ascii.eqb_neq. intros <-. apply B. apply in_or_app. right. left. auto.
Qed.

Lemma parse_block b hs es : ordinary b -> parse_line (hs, es) (line_of b) = (hs ++ fst (parsed b), es ++ snd (parsed b)).
Proof.
  destruct b as [n t|t|cells|n|]; intros O; unfold parse_line.
  - destruct O as (P & T & NH). rewrite strip_tidy by (apply title_tidy; auto). cbn [parsed fst snd].
    remember (line_of (Title n t)) as l eqn:El. destruct n as [|n]; [lia|]. destruct l as [|c l]; [discriminate|].
    assert (c = "#") by (cbn in El; congruence). subst c.
    change (starts_with ["#"] ("#" :: l)) with true. cbn iota. rewrite El. unfold heading_from_markdown. f_equal. f_equal. f_equal.
    assert (T0 := T). destruct T0 as (N & _ & F & L).
    f_equal.
    + cbn [line_of]. replace (repeat "#" (S n) ++ " " :: t) with (repeat "#" (S n) ++ (" " :: t) ++ []) by (rewrite app_nil_r; reflexivity).
      apply strip_of_around; auto; try discriminate.
      * apply Forall_forall. intros x I. apply repeat_spec in I. subst x. reflexivity.
      * intros c r E. injection E as <- _. reflexivity.
      * intros c r E. destruct (exists_last N) as (u & d & ->). rewrite app_comm_cons in E. apply app_inj_tail in E. destruct E as [_ <-].
        apply Ascii.eqb_neq. intros <-. apply NH, in_or_app. right. left. auto.
    + cbn [line_of]. rewrite count_app, count_repeat. rewrite (count_none "#" (" " :: t)); [lia|]. intros [K|K]; [discriminate|auto].
  - destruct O as (T & D & H1 & H2). cbn [line_of]. rewrite strip_tidy by auto. destruct (first_tidy t T) as (c & r & -> & W).
    replace (starts_with ["#"] (c :: r)) with false.
    2:{ cbn [starts_with]. destruct (Ascii.eqb_spec "#" c) as [<-|]; [exfalso; eapply H1; reflexivity|reflexivity]. }
    assert (NL : ~ In newline (c :: r)) by apply T.
    replace (matches table_pattern (c :: r)) with false.
    2:{ symmetry. destruct (matches table_pattern (c :: r)) eqn:M; auto. apply table_line_iff in M; auto. destruct M as [m E]. injection E as -> _. exfalso. eapply H2. reflexivity. }
    cbn [andb]. rewrite not_contains by auto. cbn [parsed fst snd]. rewrite app_nil_r. reflexivity.
  - destruct O as (F & N & D & X). pose proof (row_line cells N) as R.
    assert (NL : ~ In newline (join ["|"] cells)).
    { intros K. apply tidy_join in K. destruct K as [K|K]; [discriminate|]. apply Exists_exists in K. destruct K as (x & I & K).
      rewrite Forall_forall in F. destruct (F x I) as (_ & _ & G). auto. }
    assert (T : tidy (line_of (Row cells))) by (rewrite R; apply bars_tidy; auto).
    rewrite strip_tidy by auto.
    assert (M : matches table_pattern (line_of (Row cells)) = true).
    { apply table_line_iff; [apply T|]. rewrite R. eexists. reflexivity. }
    assert (H : matches horizontal_line_pattern (line_of (Row cells)) = false).
    { destruct (matches horizontal_line_pattern (line_of (Row cells))) eqn:Q; auto. apply rule_characters in Q.
      apply Exists_exists in X. destruct X as (x & I & c & J & W & DD). rewrite Forall_forall in Q, F.
      assert (K : In c (line_of (Row cells))).
      { cbn [line_of]. right. apply in_concat. exists (x ++ ["|"]). split; [apply in_map_iff; eauto|apply in_or_app; auto]. }
      destruct (Q c K) as [Z|[Z|Z]]; try contradiction. subst c. destruct (F x I) as (_ & G & _). contradiction. }
    rewrite M, H, not_contains by auto. cbn [negb andb parsed fst snd]. rewrite row_strip by auto.
    destruct (line_of (Row cells)) as [|c l] eqn:L; [discriminate|]. assert (c = "|") by (cbn in L; congruence). subst c.
    change (starts_with ["#"] ("|" :: l)) with false. cbn iota. rewrite app_nil_r. reflexivity.
  - cbn in O. destruct (rule_line n O) as (r & E & NL). rewrite E.
    assert (T : tidy (chars "| ------ " ++ r ++ ["|"])).
    { change (chars "| ------ " ++ r ++ ["|"]) with ("|" :: (chars " ------ " ++ r ++ ["|"])). rewrite app_assoc. apply bars_tidy.
      intros K. apply in_app_or in K. destruct K as [K|K]; [unfold newline in K; cbn in K; intuition discriminate|auto]. }
    rewrite strip_tidy by auto.
    assert (C : contains (chars "---") (chars "| ------ " ++ r ++ ["|"]) = true) by reflexivity. rewrite C.
    cbn [parsed fst snd]. rewrite !app_nil_r.
    change (chars "| ------ " ++ r ++ ["|"]) with ("|" :: (chars " ------ " ++ r ++ ["|"])). cbn [starts_with]. cbn [Ascii.eqb Bool.eqb andb].
    destruct (matches table_pattern _ && negb _); reflexivity.
  - cbn. rewrite !app_nil_r. reflexivity.
Qed.

Lemma parse_blocks bs : forall hs es, Forall ordinary bs ->
  fold_left parse_line (map line_of bs) (hs, es) = (hs ++ flat_map (fun b => fst (parsed b)) bs, es ++ flat_map (fun b => snd (parsed b)) bs).
Proof.
  induction bs as [|b bs IH]; intros hs es F; [cbn; rewrite !app_nil_r; reflexivity|]. inversion F; subst. cbn [map fold_left flat_map].
  rewrite parse_block by auto. rewrite IH by auto. rewrite <- !app_assoc. reflexivity.
Qed.
Lemma parse_markdown_blocks bs : Forall ordinary bs ->
  parse_markdown (markdown bs) = (flat_map (fun b => fst (parsed b)) bs, flat_map (fun b => snd (parsed b)) bs).
Proof.
  intros F. unfold parse_markdown, markdown. destruct bs as [|b bs]; [reflexivity|].
  rewrite split_on_join; [apply (parse_blocks (b :: bs)); auto|discriminate|]. apply Forall_map. eapply Forall_impl; [|exact F]. apply no_newline.
Qed.

(** ** Adding to a document *)
Lemma add_all hs : forall d, Forall (fun h => h_level h <= 9) hs ->
  foldM (fun d h => add_heading (h_text h) (h_level h) d) hs d = Ok (d ++ map (fun h => DHeading (h_text h) (h_level h)) hs).
Proof.
  induction hs as [|h hs IH]; intros d F; [cbn; rewrite app_nil_r; reflexivity|]. inversion F; subst. cbn [foldM]. unfold add_heading at 1.
  replace (h_level h <=? 9) with true by (symmetry; apply Nat.leb_le; auto). cbn [bind]. rewrite IH by auto. rewrite <- app_assoc. reflexivity.
Qed.
Lemma add_too_high hs : forall d, Exists (fun h => 9 < h_level h) hs ->
  foldM (fun d h => add_heading (h_text h) (h_level h) d) hs d = Err ValueError.
Proof.
  induction hs as [|h hs IH]; intros d E; [inversion E|]. cbn [foldM]. unfold add_heading at 1. destruct (Nat.leb_spec (h_level h) 9) as [L|L]; [|reflexivity].
  cbn [bind]. apply IH. inversion E; subst; [lia|auto].
Qed.
Lemma add_block b d : ordinary b -> foldM add_element (snd (parsed b)) d = Ok (d ++ body b).
Proof.
  destruct b as [n t|t|cells|n|]; intros O; cbn [parsed snd foldM body]; unfold add_element; try (rewrite app_nil_r; reflexivity); [| |reflexivity].
  - destruct O as (P & (N & _ & F & L) & NH). cbn [line_of]. destruct n as [|n]; [lia|]. cbn [repeat app].
    change (starts_with ["#"] ("#" :: repeat "#" n ++ " " :: t)) with true. cbn iota.
    replace ("#" :: repeat "#" n ++ " " :: t) with ((repeat "#" (S n) ++ [" "]) ++ t ++ []) by (rewrite app_nil_r, <- app_assoc; reflexivity).
    rewrite strip_of_around; auto.
    + unfold add_paragraph_as_heading, add_heading. rewrite (count_none "#" t) by auto. reflexivity.
    + apply Forall_app. split; [|repeat constructor]. apply Forall_forall. intros x I. apply repeat_spec in I. subst x. reflexivity.
    + intros c r E. apply orb_false_iff. split; apply Ascii.eqb_neq; intros ->; [apply (F " " r E); cbn; auto 20|apply NH; subst t; left; auto].
    + intros c r E. apply orb_false_iff. split; apply Ascii.eqb_neq; intros ->; [apply (L " " r E); cbn; auto 20|apply NH; subst t; apply in_or_app; right; left; auto].
  - destruct O as (T & _ & H & _). destruct (first_tidy t T) as (c & r & -> & _). cbn [starts_with].
    destruct (Ascii.eqb_spec "#" c) as [<-|]; [exfalso; eapply H; reflexivity|]. reflexivity.
Qed.
Lemma add_blocks bs : forall d, Forall ordinary bs -> foldM add_element (flat_map (fun b => snd (parsed b)) bs) d = Ok (d ++ flat_map body bs).
Proof.
  induction bs as [|b bs IH]; intros d F; [cbn; rewrite app_nil_r; reflexivity|]. inversion F; subst. cbn [flat_map].
  assert (A : forall l m s, foldM add_element (l ++ m) s = let* s' := foldM add_element l s in foldM add_element m s').
  { clear. induction l as [|x l IH]; intros m s; [reflexivity|]. cbn [app foldM]. destruct (add_element s x); cbn [bind]; [apply IH|reflexivity]. }
  rewrite A, add_block by auto. cbn [bind]. rewrite IH by auto. rewrite <- app_assoc. reflexivity.
Qed.

(** C68: Word documents made from markdown. *)
From Coq Require Import Ascii String List Bool Arith Lia.
From Verif Require Import Base AnnotationModel AnnotationProofs DocstringModel DocstringSpec DocstringProofs DocxModel DocxSpec DocxProofs.
Import ListNotations.
Local Open Scope char_scope.
Local Open Scope list_scope.
Local Open Scope nat_scope.

Lemma document_of bs : Forall ordinary bs ->
  from_markdown (markdown bs) = let* d := add_headings (flat_map (fun b => fst (parsed b)) bs) [] in Ok (d ++ flat_map body bs).
Proof.
  intros F. unfold from_markdown. rewrite parse_markdown_blocks by auto. destruct (add_headings _ []) as [d|e]; cbn [bind]; [|reflexivity].
  apply add_blocks. auto.
Qed.

(** The document of an ordinary text: the titles with their levels (and the space before them), a page break,
    then lines in their order, titles again; each row of a table is a table; rules and blank lines are left out. *)
Theorem C68_document : forall bs, Forall ordinary bs -> (forall n t, In (Title n t) bs -> n <= 9) ->
  from_markdown (markdown bs) = Ok (flat_map contents bs ++ [DPageBreak] ++ flat_map body bs).
Proof.
  intros bs F L. rewrite document_of by auto. unfold add_headings. rewrite add_all.
  - cbn [bind app]. rewrite <- app_assoc. f_equal. f_equal. clear. induction bs as [|b bs IH]; [reflexivity|]. cbn [flat_map].
    rewrite map_app, IH. destruct b; reflexivity.
  - apply Forall_forall. intros h I. apply in_flat_map in I. destruct I as (b & I & J). destruct b as [n t|t|c|n|]; cbn in J; try tauto.
    destruct J as [<-|[]]. apply (L n t I).
Qed.

(** A title of more than nine levels: no document at all. *)
Theorem C68_levels_limited_refuted : forall bs n t, Forall ordinary bs -> In (Title n t) bs -> 9 < n ->
  from_markdown (markdown bs) = Err ValueError.
Proof.
  intros bs n t F I L. rewrite document_of by auto. unfold add_headings. rewrite add_too_high; [reflexivity|].
  apply Exists_exists. exists (Heading (" " :: t) n). split; [|exact L]. apply in_flat_map. exists (Title n t). split; [auto|left; auto].
Qed.

(** The level of a title is lost where the title stands: all are at level 0. *)
Theorem C68_levels_refuted : forall n t, ordinary (Title n t) -> n <= 9 ->
  from_markdown (line_of (Title n t)) = Ok [DHeading (" " :: t) n; DPageBreak; DHeading t 0].
Proof.
  intros n t O L. change (line_of (Title n t)) with (markdown [Title n t]). rewrite C68_document; auto.
  intros m u [E|[]]. injection E as <- <-. auto.
Qed.

(** Number signs in the text of a title count. *)
Theorem C68_number_signs_refuted : forall s t, tidy s -> ~ In "#" s -> tidy t -> ~ In "#" t ->
  from_markdown (chars "# " ++ s ++ "#" :: t) = Ok [DHeading (" " :: s ++ "#" :: t) 2; DPageBreak; DHeading (s ++ "#" :: t) 1].
Proof.
  intros s t S NS T NT. set (u := s ++ "#" :: t).
  assert (U : tidy u).
  { destruct S as (N & NL & F & L), T as (N' & NL' & F' & L'). unfold u. split; [destruct s; discriminate|]. split; [|split].
    - intros K. apply in_app_or in K. destruct K as [K|[K|K]]; [auto|discriminate|auto].
    - intros c r E. destruct s as [|d s]; [congruence|]. injection E as <- _. eapply F. reflexivity.
    - intros c r E. destruct (exists_last N') as (v & d & ->). rewrite app_comm_cons, app_assoc in E. apply app_inj_tail in E. destruct E as [_ <-].
      eapply L'. reflexivity. }
  assert (C : count "#" u = 1).
  { unfold u. rewrite count_app, (count_none "#" s) by auto. change ("#" :: t) with (["#"] ++ t). rewrite count_app, (count_none "#" t) by auto. reflexivity. }
  assert (FU : forall c r, u = c :: r -> c <> "#" /\ c <> " ").
  { intros c r E. split; intros ->.
    - unfold u in E. destruct S as (N & _). destruct s as [|d s]; [congruence|]. injection E as -> _. apply NS. left; auto.
    - destruct U as (_ & _ & F & _). apply (F " " r E). cbn. auto 20. }
  assert (LU : forall c r, u = r ++ [c] -> c <> "#" /\ c <> " ").
  { intros c r E. split; intros ->.
    - unfold u in E. destruct T as (N & _). destruct (exists_last N) as (v & d & ->). rewrite app_comm_cons, app_assoc in E. apply app_inj_tail in E.
      destruct E as [_ ->]. apply NT, in_or_app. right. left. auto.
    - destruct U as (_ & _ & _ & L). apply (L " " r E). cbn. auto 20. }
  change (chars "# " ++ u) with (line_of (Title 1 u)).
  assert (TI : tidy (line_of (Title 1 u))) by (apply title_tidy; auto).
  unfold from_markdown, parse_markdown. rewrite split_on_none by apply TI. cbn [fold_left]. unfold parse_line.
  rewrite strip_tidy by auto. cbn [line_of repeat app]. cbn [starts_with]. change (Ascii.eqb "#" "#") with true. cbn [andb app].
  unfold heading_from_markdown.
  replace (strip_of (Ascii.eqb "#") ("#" :: " " :: u)) with (" " :: u).
  2:{ symmetry. replace ("#" :: " " :: u) with (["#"] ++ (" " :: u) ++ []) by (rewrite app_nil_r; reflexivity). apply strip_of_around; try discriminate; repeat constructor.
      - intros c r E. injection E as <- _. reflexivity.
      - intros c r E. destruct U as (N & _). destruct (exists_last N) as (v & d & Ev). rewrite Ev, app_comm_cons in E. apply app_inj_tail in E. destruct E as [_ <-].
        destruct (LU d v Ev) as [K _]. apply Ascii.eqb_neq. congruence. }
  replace (count "#" ("#" :: " " :: u)) with 2 by (change ("#" :: " " :: u) with (["#"; " "] ++ u); rewrite count_app, C; reflexivity).
  unfold add_headings. cbn [foldM h_text h_level]. unfold add_heading at 1. cbn [Nat.leb bind app]. cbn [foldM]. unfold add_element. cbn [starts_with].
  change (Ascii.eqb "#" "#") with true. cbn [andb].
  replace (strip_of (fun c => Ascii.eqb c " " || Ascii.eqb c "#") ("#" :: " " :: u)) with u.
  2:{ symmetry. replace ("#" :: " " :: u) with (["#"; " "] ++ u ++ []) by (rewrite app_nil_r; reflexivity). apply strip_of_around; try apply U; repeat constructor.
      - intros c r E. destruct (FU c r E). apply orb_false_iff. split; apply Ascii.eqb_neq; auto.
      - intros c r E. destruct (LU c r E). apply orb_false_iff. split; apply Ascii.eqb_neq; auto. }
  unfold add_paragraph_as_heading, add_heading. rewrite C. reflexivity.
Qed.

(** A line with three dashes in a row is lost, be it text or the row of a table, unless it is a title. *)
Theorem C68_dashes_refuted : forall before after s, Forall ordinary before -> Forall ordinary after -> (forall n t, In (Title n t) (before ++ after) -> n <= 9) ->
  tidy s -> occurs dashes s -> (forall r, s <> "#" :: r) ->
  from_markdown (join [newline] (map line_of before ++ [s] ++ map line_of after)) = from_markdown (markdown (before ++ after)).
Proof.
  intros before after s B A L T D H.
  assert (S : forall acc, parse_line acc s = acc).
  { intros [hs es]. unfold parse_line. rewrite strip_tidy by auto. destruct (first_tidy s T) as (c & r & -> & _). cbn [starts_with].
    destruct (Ascii.eqb_spec "#" c) as [<-|]; [exfalso; eapply H; reflexivity|]. cbn [andb]. apply contains_iff in D. unfold dashes in D. rewrite D.
    destruct (matches table_pattern (c :: r) && negb _); reflexivity. }
  assert (P : parse_markdown (join [newline] (map line_of before ++ [s] ++ map line_of after)) = parse_markdown (markdown (before ++ after))).
  { rewrite parse_markdown_blocks by (apply Forall_app; auto). unfold parse_markdown. rewrite split_on_join.
    - rewrite !fold_left_app. cbn [fold_left]. rewrite parse_blocks by auto. rewrite S. rewrite parse_blocks by auto. rewrite !flat_map_app. reflexivity.
    - destruct (map line_of before); discriminate.
    - apply Forall_app. split; [apply Forall_map; eapply Forall_impl; [|exact B]; apply no_newline|]. constructor; [apply T|].
      apply Forall_map. eapply Forall_impl; [|exact A]. apply no_newline. }
  unfold from_markdown. rewrite P. reflexivity.
Qed.

(** A row whose only cell is one dash or two is not a table. *)
Theorem C68_dash_cell_refuted : forall a b k, Forall white a -> Forall white b -> ~ In newline a -> ~ In newline b -> k = 1 \/ k = 2 ->
  let s := "|" :: (a ++ repeat "-" k ++ b) ++ ["|"] in from_markdown s = Ok [DPageBreak; DParagraph s].
Proof.
  intros a b k Wa Wb Na Nb K s.
  assert (NL : ~ In newline (a ++ repeat "-" k ++ b)).
  { intros I. rewrite !in_app_iff in I. destruct I as [I|[I|I]]; auto. apply repeat_spec in I. discriminate. }
  assert (T : tidy s) by (apply bars_tidy; auto).
  assert (BL : forall w, Forall white w -> described blanks w).
  { clear. induction 1 as [|c w H F IH]; [constructor|]. change (c :: w) with ([c] ++ w). constructor; auto. constructor. apply is_space_white. auto. }
  assert (M : matches horizontal_line_pattern s = true).
  { apply matches_iff. unfold horizontal_line_pattern, s. cbn [seqs].
    replace ("|" :: (a ++ repeat "-" k ++ b) ++ ["|"]) with ([] ++ ["|"] ++ a ++ repeat "-" k ++ b ++ ["|"] ++ [] ++ [] ++ [] ++ []) by (cbn [app]; rewrite <- !app_assoc, ?app_nil_r; reflexivity).
    repeat (apply In_seq); try (solve [constructor | apply BL; auto | apply BL; constructor | apply In_right; constructor; reflexivity]).
    destruct K as [-> | ->]; cbn [repeat]; unfold plus.
    - change ["-"] with (["-"] ++ []). constructor; [constructor; reflexivity|constructor].
    - change ["-"; "-"] with (["-"] ++ ["-"] ++ []). constructor; [constructor; reflexivity|]. constructor; [constructor; reflexivity|constructor]. }
  assert (D : contains (chars "---") s = false).
  { apply not_contains. intros (u & v & E). unfold s in E.
    assert (C : count "-" s = k).
    { unfold s. change ("|" :: (a ++ repeat "-" k ++ b) ++ ["|"]) with (["|"] ++ (a ++ repeat "-" k ++ b) ++ ["|"]). rewrite !count_app, count_repeat.
      rewrite (count_none "-" a), (count_none "-" b); [cbn; lia|..]; intros I; [rewrite Forall_forall in Wb; apply Wb in I|rewrite Forall_forall in Wa; apply Wa in I]; cbn in I; intuition discriminate. }
    fold s in E. rewrite E, !count_app in C. change (count "-" dashes) with 3 in C. lia. }
  assert (NM : split_on newline s = [s]) by (apply split_on_none, T).
  unfold from_markdown, parse_markdown. rewrite NM. cbn [fold_left]. unfold parse_line. rewrite strip_tidy by auto. rewrite M, D. rewrite andb_false_r.
  reflexivity.
Qed.

(** An empty cell at the end of a row is lost. *)
Theorem C68_empty_cell_refuted : forall cells, ordinary (Row cells) ->
  from_markdown ("|" :: line_of (Row cells)) = from_markdown (line_of (Row cells)) /\
  from_markdown (line_of (Row cells) ++ ["|"]) = from_markdown (line_of (Row cells)).
Proof.
  intros cells O.
  assert (X := O). destruct X as (F & N & D & X). pose proof (row_line cells N) as R.
  assert (NL : ~ In newline (join ["|"] cells)).
  { intros K. apply tidy_join in K. destruct K as [K|K]; [discriminate|]. apply Exists_exists in K. destruct K as (x & I & K).
    rewrite Forall_forall in F. destruct (F x I) as (_ & _ & G). auto. }
  assert (G : forall p q, Forall (fun c => c = "|") p -> Forall (fun c => c = "|") q -> p <> [] -> q <> [] ->
    from_markdown (p ++ join ["|"] cells ++ q) = Ok [DPageBreak; DTable [cells]]).
  { intros p q P Q NP NQ. destruct p as [|c p]; [congruence|]. inversion P as [|? ? P1 P2]; subst. destruct (exists_last NQ) as (q' & c & ->).
    apply Forall_app in Q. destruct Q as [Q1 Q2]. inversion Q2; subst. set (s := ("|" :: p) ++ join ["|"] cells ++ q' ++ ["|"]).
    assert (E : s = "|" :: (p ++ join ["|"] cells ++ q') ++ ["|"]) by (unfold s; cbn [app]; rewrite <- !app_assoc; reflexivity).
    assert (NS : ~ In newline (p ++ join ["|"] cells ++ q')).
    { intros I. rewrite !in_app_iff in I. rewrite Forall_forall in P2, Q1. destruct I as [I|[I|I]]; auto; [apply P2 in I|apply Q1 in I]; discriminate. }
    assert (T : tidy s) by (rewrite E; apply bars_tidy; auto).
    assert (M : matches table_pattern s = true) by (apply table_line_iff; [apply T|eauto]).
    assert (H : matches horizontal_line_pattern s = false).
    { destruct (matches horizontal_line_pattern s) eqn:K; auto. apply rule_characters in K.
      apply Exists_exists in X. destruct X as (x & I & c & J & W & DD). rewrite Forall_forall in K, F.
      assert (IC : In c s).
      { assert (Z : In c (line_of (Row cells))).
        { cbn [line_of]. right. apply in_concat. exists (x ++ ["|"]). split; [apply in_map_iff; eauto|apply in_or_app; auto]. }
        rewrite R in Z. unfold s. rewrite !in_app_iff in *. cbn in *. tauto. }
      destruct (K c IC) as [Z|[Z|Z]]; try contradiction. subst c. destruct (F x I) as (_ & Y & _). contradiction. }
    assert (C : contains (chars "---") s = false).
    { apply not_contains. intros (u & v & U). apply D. rewrite R.
      (* dashes are in the middle part *)
      assert (In_mid : forall (x y : str), Forall (fun c => c = "|") x -> forall u v, x ++ y = u ++ dashes ++ v -> exists u', y = u' ++ dashes ++ v).
      { clear. induction x as [|c x IH]; intros y Hx u v E; [eauto|]. inversion Hx; subst. destruct u as [|d u]; [discriminate|]. cbn in E. injection E as _ E. eapply IH; eauto. }
      unfold s in U. destruct (In_mid _ _ P _ _ U) as (u' & U').
      assert (RV : rev (q' ++ ["|"]) ++ rev (join ["|"] cells) = rev v ++ dashes ++ rev u').
      { rewrite <- rev_app_distr, U', !rev_app_distr, <- app_assoc. reflexivity. }
      destruct (In_mid _ _ (Forall_rev (proj2 (Forall_app _ _ _) (conj Q1 Q2))) _ _ RV) as (v' & V').
      apply (f_equal (@rev ascii)) in V'. rewrite rev_involutive, !rev_app_distr, rev_involutive in V'.
      exists ("|" :: u'), (rev v' ++ ["|"]). cbn [app]. rewrite V'. rewrite <- !app_assoc. reflexivity. }
    assert (SP : split_on "|" (strip_of (Ascii.eqb "|") s) = cells).
    { assert (Z := row_strip cells N F). rewrite R in Z. unfold s.
      assert (Y : forall p q, Forall (fun c => c = "|") p -> Forall (fun c => c = "|") q -> strip_of (Ascii.eqb "|") (p ++ join ["|"] cells ++ q) = strip_of (Ascii.eqb "|") (join ["|"] cells)).
      { assert (JN : join ["|"] cells <> [] /\ (forall c t, join ["|"] cells = c :: t -> Ascii.eqb "|" c = false) /\ (forall c t, join ["|"] cells = t ++ [c] -> Ascii.eqb "|" c = false)).
        { split; [|split].
          - destruct cells as [|x cells']; [congruence|]. inversion F as [|? ? [K _] _]; subst. cbn [join]. destruct cells'; destruct x; try congruence; discriminate.
          - intros c t Et. destruct cells as [|x cells']; [congruence|]. inversion F as [|? ? (K & B & _) _]; subst. destruct x as [|d x]; [congruence|].
            apply Ascii.eqb_neq. intros <-. apply B. cbn [join] in Et. destruct cells'; cbn in Et; injection Et as -> _; left; auto.
          - intros c t Et. destruct (exists_last N) as (pre & x & Ec). rewrite Ec in F, Et. apply Forall_app in F. destruct F as [_ F]. inversion F as [|? ? (K & B & _) _]; subst.
            destruct (exists_last K) as (u & d & ->).
            assert (J : exists r, join ["|"] (pre ++ [u ++ [d]]) = r ++ [d]).
            { clear. induction pre as [|p pre IH]; [exists u; reflexivity|]. destruct IH as [r E]. cbn [app join]. rewrite E.
              destruct (pre ++ [u ++ [d]]) eqn:Q; [destruct pre; discriminate|]. exists (p ++ ["|"] ++ r). rewrite <- !app_assoc. reflexivity. }
            destruct J as [r J]. pose proof (eq_trans (eq_sym J) Et) as Et2. clear Et. rename Et2 into Et. apply app_inj_tail in Et. destruct Et as [_ <-]. apply Ascii.eqb_neq. intros <-. apply B. apply in_or_app. right. left. auto. }
        destruct JN as (J1 & J2 & J3). intros p0 q0 Hp0 Hq0.
        assert (V : forall w, Forall (fun c => c = "|") w -> Forall (fun c => Ascii.eqb "|" c = true) w) by (intros w Hw; eapply Forall_impl; [|exact Hw]; intros ? ->; reflexivity).
        rewrite (strip_of_around _ p0 _ q0) by auto. symmetry.
        rewrite <- (strip_of_around (Ascii.eqb "|") [] (join ["|"] cells) []) at 2 by auto. rewrite app_nil_r. reflexivity. }
      rewrite (Y ("|" :: p) (q' ++ ["|"])) by (auto; apply Forall_app; auto). rewrite (Y ["|"] ["|"]) in Z by auto. exact Z. }
    unfold from_markdown, parse_markdown. rewrite split_on_none by apply T. cbn [fold_left]. unfold parse_line. rewrite strip_tidy by auto.
    rewrite M, H, C, SP. rewrite E. reflexivity. }
  rewrite R. assert (B : Forall (fun c => c = "|") ["|"]) by auto. assert (BB : Forall (fun c => c = "|") ["|"; "|"]) by auto.
  rewrite (G ["|"] ["|"]) by (auto; discriminate). split.
  - apply (G ["|"; "|"] ["|"]); auto; discriminate.
  - rewrite <- !app_assoc. apply (G ["|"] ["|"; "|"]); auto; discriminate.
Qed.

(** ** Example *)
Definition sample : list block :=
  [Title 2 (chars "Car"); Blank; Line (chars "A vehicle"); Row [chars " Wheels "; chars " 4 "]; Rule 2; Row [chars " Name "; chars " Old one "]].
Example C68_example :
  from_markdown (markdown sample)
  = Ok [DHeading (chars " Car") 2; DPageBreak; DHeading (chars "Car") 0; DParagraph (chars "A vehicle");
        DTable [[chars " Wheels "; chars " 4 "]]; DTable [[chars " Name "; chars " Old one "]]].
Proof. vm_compute. reflexivity. Qed.
Example C68_lost : from_markdown (chars "| Name | a --- b |") = Ok [DPageBreak] /\ from_markdown (chars "| - |") = Ok [DPageBreak; DParagraph (chars "| - |")]
  /\ from_markdown (chars "||a|") = Ok [DPageBreak; DTable [[["a"]]]].
Proof. repeat split; vm_compute; reflexivity. Qed.

Print Assumptions C68_document.
Print Assumptions C68_levels_limited_refuted.
Print Assumptions C68_levels_refuted.
Print Assumptions C68_number_signs_refuted.
Print Assumptions C68_dashes_refuted.
Print Assumptions C68_dash_cell_refuted.
Print Assumptions C68_empty_cell_refuted.

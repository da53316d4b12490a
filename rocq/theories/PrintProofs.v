(** Lemmas on the printing of datasets. *)
From Coq Require Import Ascii String List Bool Arith Lia.
From Verif Require Import Base BaseProofs AnnotationModel DocstringModel DocstringProofs TableModel PrintModel PrintSpec.
Import ListNotations.
Local Open Scope char_scope.
Local Open Scope list_scope.
Local Open Scope nat_scope.

Lemma capitalized_length s : List.length (capitalized s) = List.length s.
Proof. destruct s; cbn; [|rewrite map_length]; auto. Qed.

Lemma titles_spec (attrs : list str) : forall idx last odd,
  idx + List.length attrs = S last ->
  match odd with Some p => p < 2 | None => match attrs with a :: _ => List.length a <= 10 | [] => True end end ->
  let ws := widths (match odd with Some p => p | None => 0 end) attrs in
  exists cells, titles attrs idx last odd = Ok (concat (map (fun c => "|" :: c) cells) ++ match attrs with [] => [] | _ => ["|"] end, ws)
    /\ Forall3 centered ws attrs cells.
Proof.
  induction attrs as [|a attrs IH]; intros idx last odd E H; cbn [widths].
  - exists []. split; [reflexivity|constructor].
  - cbn [titles List.length] in *. set (n := List.length a) in *.
    destruct (Nat.leb_spec n 10) as [Hn|Hn].
    + replace (16 <? n + 6) with false by (symmetry; apply Nat.ltb_ge; lia). cbn [of_option bind].
      set (i := 16 - n). pose proof (Nat.mod_upper_bound i 2 ltac:(lia)) as Hm. pose proof (Nat.div_mod i 2 ltac:(lia)) as Hd.
      assert (Hp : i mod 2 = n mod 2).
      { pose proof (Nat.div_mod n 2 ltac:(lia)) as D2. pose proof (Nat.mod_upper_bound n 2 ltac:(lia)) as U2.
        assert (K : i + n = 16) by (unfold i; lia). clearbody i n. clear - K Hm Hd D2 U2. lia. }
      destruct (IH (S idx) last (Some (i mod 2)) ltac:(lia) Hm) as (cells & E1 & E2). rewrite E1. cbn [bind fst snd].
      rewrite Hp in E2.
      assert (HL : List.length (spaces (i / 2) ++ spaces (i mod 2) ++ capitalized a ++ spaces (i / 2)) = 16).
      { unfold spaces. rewrite !app_length, !repeat_length, capitalized_length. fold n. unfold i in *. lia. }
      exists ((spaces (i / 2) ++ spaces (i mod 2) ++ capitalized a ++ spaces (i / 2)) :: cells). split.
      * rewrite HL. rewrite Hp. f_equal. f_equal. cbn [map concat chars list_ascii_of_string app]. f_equal.
        rewrite <- !app_assoc. do 4 f_equal. destruct (Nat.eqb_spec idx last) as [->|Hl].
        -- destruct attrs; [|cbn in E; lia]. inversion E2; subst. reflexivity.
        -- destruct attrs; [cbn in E; lia|]. reflexivity.
      * constructor; [|exact E2].
        exists (i / 2 + i mod 2), (i / 2), (capitalized a). unfold spaces. rewrite repeat_app, <- app_assoc.
        split; [reflexivity|]. unfold spaces in HL. rewrite HL, capitalized_length. unfold i in *. repeat split; lia.
    + replace (16 <? n + 6) with true by (symmetry; apply Nat.ltb_lt; lia).
      destruct odd as [p|]; [|lia]. cbn [of_option bind].
      destruct (IH (S idx) last (Some p) ltac:(lia) H) as (cells & E1 & E2). rewrite E1. cbn [bind fst snd].
      assert (HL : List.length (spaces 3 ++ spaces p ++ capitalized a ++ spaces 3) = n + 6 + p).
      { unfold spaces. rewrite !app_length, !repeat_length, capitalized_length. fold n. lia. }
      exists ((spaces 3 ++ spaces p ++ capitalized a ++ spaces 3) :: cells). split.
      * rewrite HL. f_equal. f_equal. cbn [map concat chars list_ascii_of_string app]. f_equal.
        rewrite <- !app_assoc. do 4 f_equal. destruct (Nat.eqb_spec idx last) as [->|Hl].
        -- destruct attrs; [|cbn in E; lia]. inversion E2; subst. reflexivity.
        -- destruct attrs; [cbn in E; lia|]. reflexivity.
      * constructor; [|exact E2].
        exists (3 + p), 3, (capitalized a). unfold spaces in *. rewrite repeat_app, <- app_assoc.
        split; [reflexivity|]. rewrite HL, capitalized_length. fold n. repeat split; lia.
Qed.

Lemma widths_wide p (names : list str) : Forall (fun w => 16 <= w) (widths p names).
Proof.
  revert p; induction names as [|n names IH]; intros p; cbn; [constructor|].
  destruct (Nat.leb_spec (List.length n) 10); constructor; auto; lia.
Qed.

Lemma Forall3_length {A B C} (P : A -> B -> C -> Prop) l m n : Forall3 P l m n -> List.length l = List.length m /\ List.length m = List.length n.
Proof. induction 1; cbn; lia. Qed.

Lemma in_column_length w v c : 16 <= w -> in_column w v c -> List.length c = w.
Proof.
  intros Hw [(H & ->)|(H & ->)].
  - rewrite !app_length, repeat_length. cbn. lia.
  - cbn [List.length]. rewrite app_length, firstn_length. change (List.length (chars "... ")) with 4. lia.
Qed.

Lemma bars_length P ws (m : list str) cells : Forall3 P ws m cells -> (forall w v c, In w ws -> P w v c -> List.length c = w) ->
  List.length (in_bars cells) = S (fold_right (fun w n => S w + n) 0 ws).
Proof.
  intros H HP. unfold in_bars. rewrite app_length. cbn [List.length].
  assert (List.length (concat (map (fun c => "|" :: c) cells)) = fold_right (fun w n => S w + n) 0 ws); [|lia].
  induction H as [|w v c l m n Hc H IH]; [reflexivity|]. cbn [map concat app List.length fold_right]. rewrite app_length, IH by (intros; eapply HP; eauto; right; auto).
  rewrite (HP w v c) by (auto; left; auto). reflexivity.
Qed.

Section Printing.
Context {obj : Type}.
Variable attribute : obj -> str -> option str.
Variable entry : nat -> nat -> str.
Notation printed_value := (printed_value attribute entry).
Notation print_cells := (print_cells attribute entry).
Notation print_object := (print_object attribute entry).
Notation print_slice := (print_slice attribute entry).
Notation str_dataset := (str_dataset attribute entry).

(** one cell *)
Lemma cell_spec w v before : 16 <= w -> exists c, in_column w v c /\
  (let string := (before ++ chars "|" ++ spaces (Nat.max (w - List.length v - 1) 1)) ++ firstn (w - 4) v in
   if w - 3 <? List.length v then but_last string ++ chars "... "
   else if List.length v =? w - 3 then string ++ last_char v ++ chars " "
   else string ++ chars " ") = before ++ "|" :: c.
Proof.
  intros Hw. destruct (Nat.ltb_spec (w - 3) (List.length v)) as [H1|H1].
  - exists (" " :: firstn (w - 5) v ++ chars "... "). split; [right; split; [lia|reflexivity]|].
    replace (Nat.max (w - List.length v - 1) 1) with 1 by lia. cbn [spaces repeat].
    assert (E : firstn (w - 4) v = firstn (w - 5) v ++ firstn 1 (skipn (w - 5) v)).
    { rewrite <- (firstn_skipn (w - 5) v) at 1. rewrite firstn_app. rewrite firstn_length. replace (Nat.min (w - 5) (List.length v)) with (w - 5) by lia.
      rewrite firstn_firstn. replace (Nat.min (w - 4) (w - 5)) with (w - 5) by lia. replace (w - 4 - (w - 5)) with 1 by lia. reflexivity. }
    cbv zeta. rewrite E. unfold but_last. destruct (skipn (w - 5) v) as [|x s] eqn:S.
    { apply (f_equal (@List.length _)) in S. rewrite skipn_length in S. cbn in S. lia. }
    cbn [firstn]. rewrite app_assoc, app_length. cbn [List.length]. rewrite Nat.add_sub, firstn_app, Nat.sub_diag, firstn_all. cbn [firstn].
    rewrite app_nil_r, <- !app_assoc. reflexivity.
  - exists (repeat " " (w - 1 - List.length v) ++ v ++ [" "]). split; [left; split; [lia|reflexivity]|].
    replace (Nat.max (w - List.length v - 1) 1) with (w - 1 - List.length v) by lia.
    destruct (Nat.eqb_spec (List.length v) (w - 3)) as [H2|H2]; cbv zeta.
    + unfold last_char. replace (w - 4) with (List.length v - 1) by lia. rewrite <- !app_assoc. cbn [app chars list_ascii_of_string].
      unfold spaces. do 3 f_equal. rewrite app_assoc, firstn_skipn. reflexivity.
    + rewrite firstn_all2 by lia. rewrite <- !app_assoc. reflexivity.
Qed.

Lemma print_cells_spec d index (attrs : list str) : forall before_ws ws idx last string,
  idx + List.length attrs = S last -> idx = List.length before_ws -> List.length ws = List.length attrs -> Forall (fun w => 16 <= w) ws ->
  forall values, mapM (printed_value d index) attrs = Ok values ->
  exists cells, Forall3 in_column ws values cells /\
    print_cells d index attrs (before_ws ++ ws) idx last string =
      Ok (string ++ concat (map (fun c => "|" :: c) cells) ++ match attrs with [] => [] | _ => ["|"] end).
Proof.
  induction attrs as [|a attrs IH]; intros bw ws idx last string E Ei El Hw values Hv.
  - cbn in Hv. injection Hv as <-. destruct ws; [|discriminate]. exists []. split; [constructor|]. cbn. rewrite app_nil_r. reflexivity.
  - cbn in Hv. destruct (printed_value d index a) as [v|e] eqn:Ev; [|discriminate]. cbn in Hv.
    destruct (mapM (printed_value d index) attrs) as [vs|e] eqn:Evs; [|discriminate]. cbn in Hv. injection Hv as <-.
    destruct ws as [|w ws]; [discriminate|]. inversion Hw as [|? ? Hw1 Hw2]; subst.
    destruct (cell_spec w v string Hw1) as (c & Hc & Ec).
    destruct (IH (bw ++ [w]) ws (S (List.length bw)) last (string ++ "|" :: c ++ (if List.length bw =? last then chars "|" else []))) with (values := vs) as (cells & Hcs & Ecs).
    { cbn in E. lia. } { rewrite app_length. cbn. lia. } { cbn in El. lia. } { exact Hw2. } { reflexivity. }
    exists (c :: cells). split; [constructor; auto|].
    cbn [PrintModel.print_cells]. rewrite Ev. cbn [bind]. rewrite nth_error_app2, Nat.sub_diag by lia. cbn [nth_error of_option bind].
    cbv zeta in Ec. rewrite Ec. rewrite <- app_assoc in Ecs. cbn [app] in Ecs.
    assert (EE : forall e : str, (string ++ "|" :: c) ++ e = string ++ "|" :: c ++ e) by (intros; rewrite <- app_assoc; reflexivity).
    rewrite EE. etransitivity; [exact Ecs|]. f_equal. cbn [map concat]. rewrite <- !app_assoc. cbn [app]. rewrite <- !app_assoc. do 3 f_equal.
    destruct (Nat.eqb_spec (List.length bw) last) as [Hl|Hl].
    + destruct attrs; [|cbn in E; lia]. cbn in Evs. injection Evs as <-. inversion Hcs; subst. reflexivity.
    + destruct attrs; [cbn in E; lia|]. reflexivity.
Qed.

Lemma print_slice_spec d count space (rows : nat -> str) :
  (forall i, i < count -> print_object d i space = Ok (rows i)) ->
  print_slice d count space = Ok (concat (map (fun i => line_feed :: rows i) (seq 0 count))).
Proof.
  intros H. unfold PrintModel.print_slice.
  assert (G : forall l acc, (forall i, In i l -> i < count) ->
    foldM (fun string index => let* line := print_object d index space in Ok (string ++ [line_feed] ++ line)) l acc
    = Ok (acc ++ concat (map (fun i => line_feed :: rows i) l))).
  { induction l as [|i l IH]; intros acc Hl; cbn [foldM].
    - cbn. rewrite app_nil_r. reflexivity.
    - rewrite H by (apply Hl; left; auto). cbn [bind]. rewrite IH by (intros; apply Hl; right; auto). cbn. rewrite <- app_assoc. reflexivity. }
  rewrite G by (intros i Hi; apply in_seq in Hi; lia). reflexivity.
Qed.

Lemma lines_concat x l : lines (x :: l) = x ++ concat (map (fun y => line_feed :: y) l).
Proof.
  revert x; induction l as [|y l IH]; intros x; [cbn; rewrite app_nil_r; auto|].
  cbn [map concat]. change (lines (x :: y :: l)) with (x ++ line_feed :: lines (y :: l)). rewrite IH. reflexivity.
Qed.

Lemma printed_nonempty (d : dataset obj) : printed_attributes d <> [].
Proof. unfold printed_attributes. destruct (existsb _ (common d)) eqn:E; [destruct (common d); [discriminate|discriminate]|discriminate]. Qed.

Lemma str_dataset_spec (d : dataset obj) (values : nat -> list str) :
  objects d <> [] ->
  (match printed_attributes d with a :: _ => List.length a <= 10 | [] => True end) ->
  (forall i, i < Nat.min 5 (List.length (objects d)) -> mapM (printed_value d i) (printed_attributes d) = Ok (values i)) ->
  let names := printed_attributes d in
  let ws := widths 0 names in
  let n := List.length (objects d) in
  exists title rows,
    Forall3 centered ws names title /\
    (forall i, i < Nat.min 5 n -> Forall3 in_column ws (values i) (rows i)) /\
    str_dataset d = Ok (lines (
      [prefix d; in_bars title; repeat "-" (List.length (in_bars title))]
      ++ map (fun i => in_bars (rows i)) (seq 0 (Nat.min 5 n))
      ++ (if 10 <? n then [not_shown (n - 10) (number (n - 10))] else [])
      ++ (if 5 <? n then map (fun i => in_bars (rows i)) (seq 0 5) else [])
      ++ [[]])).
Proof.
  intros Ho Hf Hv names ws n.
  assert (Hn0 : names <> []) by apply printed_nonempty.
  assert (Hn1 : 0 < List.length names) by (destruct names; [congruence|cbn; lia]).
  destruct (titles_spec names 0 (List.length names - 1) None) as (title & Et & Ht).
  { lia. }
  { exact Hf. }
  cbn [Nat.add] in Et. fold ws in Et, Ht.
  assert (El : List.length ws = List.length names) by (destruct (Forall3_length _ _ _ _ Ht); auto).
  assert (Hrow : forall i, i < Nat.min 5 n -> exists cells, Forall3 in_column ws (values i) cells /\ print_object d i ws = Ok (in_bars cells)).
  { intros i Hi. destruct (print_cells_spec d i names [] ws 0 (List.length names - 1) []) with (values := values i) as (cells & H1 & H2).
    - lia.
    - reflexivity. - auto. - apply widths_wide. - apply Hv; auto.
    - exists cells. split; [exact H1|]. unfold PrintModel.print_object. fold names. cbn [app] in H2. rewrite H2. f_equal. unfold in_bars.
      destruct names; [congruence|reflexivity]. }
  assert (Hall : exists rows, forall i, i < Nat.min 5 n -> Forall3 in_column ws (values i) (rows i) /\ print_object d i ws = Ok (in_bars (rows i))).
  { clear -Hrow. revert Hrow. generalize (Nat.min 5 n) as k. intros k. induction k as [|k IH]; intros H.
    - exists (fun _ => []). intros; lia.
    - destruct IH as [rows Hr]; [intros; apply H; lia|]. destruct (H k) as (c & Hc); [lia|].
      exists (fun i => if i =? k then c else rows i). intros i Hi. destruct (Nat.eqb_spec i k) as [->|Hk]; auto. apply Hr. lia. }
  destruct Hall as [rows Hrows]. exists title, rows. split; [exact Ht|]. split; [intros i Hi; apply Hrows; auto|].
  unfold PrintModel.str_dataset, print_titles. destruct (objects d) as [|o l] eqn:Eo; [congruence|].
  fold names. rewrite Et. cbn [bind].
  assert (Em : match names with [] => [] | _ => ["|"] end = ["|"]) by (destruct names; [congruence|auto]).
  rewrite Em. fold (in_bars title).
  assert (Hh : head_count d = Nat.min 5 n) by (unfold head_count; rewrite Eo; rewrite firstn_length; subst n; rewrite ?Eo; reflexivity).
  assert (Htl : 5 < n -> tail_count d = 5) by (intros H; unfold tail_count; rewrite Eo, skipn_length; subst n; rewrite ?Eo in *; cbn [List.length] in *; lia).
  rewrite Hh, (print_slice_spec d _ ws (fun i => in_bars (rows i))) by (intros i Hi; apply Hrows; auto). cbn [bind].
  assert (En : List.length (o :: l) = n) by (subst n; rewrite ?Eo; auto). rewrite En.
  set (body := concat (map (fun i => line_feed :: in_bars (rows i)) (seq 0 (Nat.min 5 n)))).
  assert (Hmore : (if 5 <? n then print_slice d (tail_count d) ws else Ok []) = Ok (concat (map (fun i => line_feed :: in_bars (rows i)) (if 5 <? n then seq 0 5 else [])))).
  { destruct (Nat.ltb_spec 5 n) as [H|H]; [|reflexivity]. rewrite Htl by auto. apply print_slice_spec. intros i Hi. apply Hrows. lia. }
  cbn [app]. rewrite lines_concat.
  assert (Hns : chars "+ " ++ number (n - 10) ++ chars " undisplayed object" ++ repeat "s" (Nat.min (n - 10) 2 - 1) ++ chars "..." = not_shown (n - 10) (number (n - 10)) \/ ~ 10 < n).
  { destruct (Nat.le_gt_cases n 10) as [H|H]; [right; lia|left]. unfold not_shown. do 2 f_equal. destruct (Nat.eqb_spec (n - 10) 1) as [->|H1]; [reflexivity|].
    replace (Nat.min (n - 10) 2) with 2 by lia. reflexivity. }
  assert (Hmap : forall (f : nat -> str) l, concat (map (fun y => line_feed :: y) (map f l)) = concat (map (fun i => line_feed :: f i) l)) by (intros; rewrite map_map; auto).
  cbn [map concat]. rewrite !map_app, !concat_app, !Hmap. fold body.
  destruct (Nat.ltb_spec 5 n) as [H5|H5].
  - rewrite Hmore. cbn [bind]. f_equal. rewrite Hmap. destruct (Nat.ltb_spec 10 n) as [H10|H10].
    + destruct Hns as [Hns|Hns]; [|lia]. cbn [map concat app]. rewrite <- !app_assoc. cbn [app]. rewrite <- Hns. rewrite <- ?app_assoc. cbn [app]. rewrite <- ?app_assoc. reflexivity.
    + cbn [map concat app]. rewrite <- !app_assoc. cbn [app]. rewrite <- ?app_assoc. reflexivity.
  - cbn [bind]. f_equal. destruct (Nat.ltb_spec 10 n) as [H10|H10]; [lia|]. cbn [map concat app]. rewrite <- !app_assoc. cbn [app]. rewrite <- ?app_assoc. reflexivity.
Qed.
End Printing.

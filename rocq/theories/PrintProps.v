(** C66: how a dataset is printed. *)
From Coq Require Import Ascii String List Bool Arith Lia.
From Verif Require Import Base BaseProofs AnnotationModel DocstringModel DocstringProofs TableModel PrintModel PrintSpec PrintProofs.
Import ListNotations.
Local Open Scope char_scope.
Local Open Scope list_scope.
Local Open Scope nat_scope.

(** The columns of the table: the common attributes, after the name when it is not one of them. *)
Definition columns {obj} (d : dataset obj) (names : list str) : Prop :=
  (In (chars "name") (common d) /\ names = common d) \/
  (~ In (chars "name") (common d) /\ names = chars "name" :: common d).

(** What is shown of attribute [a] of the object at position [i]: its value, or the entry of the matrix
    when the object has no such attribute. *)
Definition shown_value {obj} (attribute : obj -> str -> option str) (entry : nat -> nat -> str)
    (d : dataset obj) (i : nat) (a v : str) : Prop :=
  exists o, nth_error (objects d) i = Some o /\
    (attribute o a = Some v \/
     (attribute o a = None /\ exists c, nth_error (common d) c = Some a /\
        (forall c', nth_error (common d) c' = Some a -> c <= c') /\ v = entry i c)).

(** Each attribute of each object can be read. *)
Definition readable {obj} (attribute : obj -> str -> option str) (d : dataset obj) (names : list str) : Prop :=
  forall o a, In o (objects d) -> In a names -> attribute o a <> None \/ In a (common d).

(** The heading *)
Definition heading {obj} (d : dataset obj) : str :=
  class_name d ++ chars " " ++ (match ds_name d with [] => address d | n => n end) ++ chars ": "
  ++ chars (nat_str (List.length (objects d))) ++ chars " samples, "
  ++ chars (nat_str (List.length (common d))) ++ chars " features".

Lemma columns_printed {obj} (d : dataset obj) names : columns d names -> printed_attributes d = names.
Proof.
  unfold columns, printed_attributes. intros [(H & ->)|(H & ->)].
  - destruct (existsb _ _) eqn:E; auto. exfalso. apply Bool.not_true_iff_false in E. apply E. apply existsb_exists.
    exists (chars "name"). split; auto.
  - destruct (existsb _ _) eqn:E; auto. exfalso. apply existsb_exists in E as (x & Hx & Ex). apply str_eqb_eq in Ex. subst. auto.
Qed.

Lemma readable_values {obj} (attribute : obj -> str -> option str) entry d names i : readable attribute d names -> i < List.length (objects d) ->
  exists values, mapM (printed_value attribute entry d i) names = Ok values /\ Forall2 (shown_value attribute entry d i) names values.
Proof.
  intros Hr Hi. destruct (nth_error (objects d) i) as [o|] eqn:Eo; [|apply nth_error_None in Eo; lia].
  assert (Ho : In o (objects d)) by (eapply nth_error_In; eauto).
  assert (G : forall l, incl l names -> exists values, mapM (printed_value attribute entry d i) l = Ok values /\ Forall2 (shown_value attribute entry d i) l values).
  { induction l as [|a l IH]; intros Hl; [exists []; split; [reflexivity|constructor]|].
    destruct IH as (vs & E & F); [intros x Hx; apply Hl; right; auto|].
    assert (K : exists v, printed_value attribute entry d i a = Ok v /\ shown_value attribute entry d i a v).
    { unfold printed_value. rewrite Eo. cbn [of_option bind]. destruct (attribute o a) as [v|] eqn:Ea.
      - exists v. split; auto. exists o. auto.
      - destruct (Hr o a Ho (Hl a (or_introl eq_refl))) as [H|H]; [congruence|].
        destruct (index_of str_eqb a (common d)) as [c|] eqn:Ec.
        + cbn [of_option bind]. exists (entry i c). split; auto. exists o. split; auto. right. split; auto. exists c.
          clear -Ec. revert c Ec. induction (common d) as [|b l IH]; intros c Ec; [discriminate|]. cbn in Ec.
          destruct (str_eqb a b) eqn:Eb.
          * injection Ec as <-. apply str_eqb_eq in Eb. subst. repeat split; auto. intros; lia.
          * destruct (index_of str_eqb a l) as [k|] eqn:Ek; [|discriminate]. cbn in Ec. injection Ec as <-.
            destruct (IH k eq_refl) as (H1 & H2 & _). repeat split; auto. intros [|c'] H; [|apply H2 in H; lia].
            cbn in H. injection H as ->. rewrite (proj2 (str_eqb_eq a a) eq_refl) in Eb. discriminate.
        + exfalso. clear -Ec H. induction (common d) as [|b l IH]; [destruct H|]. cbn in Ec. destruct (str_eqb a b) eqn:Eb; [discriminate|].
          destruct (index_of str_eqb a l) eqn:Ek; [discriminate|]. destruct H as [->|H]; [|auto].
          rewrite (proj2 (str_eqb_eq a a) eq_refl) in Eb. discriminate. }
    destruct K as (v & E1 & E2). exists (v :: vs). split; [cbn; rewrite E1; cbn; rewrite E; reflexivity|constructor; auto]. }
  apply G. apply incl_refl.
Qed.

(** The table: a heading, the names of the columns, a line of dashes of the same length, the first
    objects (five at most), then for more than ten objects how many are left, and for more than five
    objects the first five again.  All lines of the table are as long. *)
Theorem C66_table : forall obj attribute entry (d : dataset obj) first others,
  columns d (first :: others) -> objects d <> [] -> List.length first <= 10 -> readable attribute d (first :: others) ->
  let names := first :: others in
  let ws := widths 0 names in
  let n := List.length (objects d) in
  exists title rows,
    Forall3 centered ws names title /\
    (forall i, i < Nat.min 5 n -> exists values,
       Forall2 (shown_value attribute entry d i) names values /\ Forall3 in_column ws values (rows i) /\
       List.length (in_bars (rows i)) = List.length (in_bars title)) /\
    str_dataset attribute entry d = Ok (lines (
      [heading d; in_bars title; repeat "-" (List.length (in_bars title))]
      ++ map (fun i => in_bars (rows i)) (seq 0 (Nat.min 5 n))
      ++ (if 10 <? n then [not_shown (n - 10) (chars (nat_str (n - 10)))] else [])
      ++ (if 5 <? n then map (fun i => in_bars (rows i)) (seq 0 5) else [])
      ++ [[]])).
Proof.
  intros obj attribute entry d first others Hc Ho Hf Hr names ws n.
  pose proof (columns_printed d _ Hc) as Ep.
  assert (Hv : exists values, forall i, i < Nat.min 5 n ->
     mapM (printed_value attribute entry d i) names = Ok (values i) /\ Forall2 (shown_value attribute entry d i) names (values i)).
  { assert (K : forall k, k <= n -> exists values, forall i, i < k ->
     mapM (printed_value attribute entry d i) names = Ok (values i) /\ Forall2 (shown_value attribute entry d i) names (values i)).
    { induction k as [|k IH]; intros Hk; [exists (fun _ => []); intros; lia|].
      destruct IH as [vs Hvs]; [lia|]. destruct (readable_values attribute entry d names k Hr) as (v & H1 & H2); [unfold n in Hk; lia|].
      exists (fun i => if i =? k then v else vs i). intros i Hi. destruct (Nat.eqb_spec i k) as [->|]; auto. apply Hvs. lia. }
    apply K. lia. }
  destruct Hv as [values Hv].
  destruct (str_dataset_spec attribute entry d values Ho) as (title & rows & H1 & H2 & H3).
  { rewrite Ep. exact Hf. }
  { intros i Hi. rewrite Ep. apply Hv. exact Hi. }
  rewrite Ep in H1, H2. fold names in H1, H2. fold ws in H1, H2. exists title, rows. split; [exact H1|]. split.
  - intros i Hi. exists (values i). split; [apply Hv; auto|]. split; [apply H2; auto|].
    rewrite (bars_length _ _ _ _ (H2 i Hi)), (bars_length _ _ _ _ H1); auto.
    + intros w v c _ (l & r & s & -> & E & _). exact E.
    + intros w v c Hw. apply in_column_length. pose proof (widths_wide 0 names) as F. rewrite Forall_forall in F. apply F. exact Hw.
  - rewrite H3. unfold heading, prefix, number. rewrite <- !app_assoc. reflexivity.
Qed.

(** An empty dataset is its heading. *)
Theorem C66_empty : forall obj attribute entry (d : dataset obj), objects d = [] -> str_dataset attribute entry d = Ok (heading d).
Proof. intros obj attribute entry d H. unfold str_dataset, heading, prefix, number. rewrite H, <- !app_assoc. reflexivity. Qed.

(** The last objects are never shown: two datasets with as many objects and the same first five are
    printed alike. *)
Theorem C66_last_objects_refuted : forall obj attribute entry class name address common_attributes (l m : list obj),
  List.length l = List.length m -> firstn 5 l = firstn 5 m ->
  str_dataset attribute entry (Dataset class name address l common_attributes) =
  str_dataset attribute entry (Dataset class name address m common_attributes).
Proof.
  intros obj attribute entry class name address_ common_ l m El Ef.
  set (d := Dataset class name address_ l common_). set (e := Dataset class name address_ m common_).
  assert (Hv : forall i a, i < 5 -> printed_value attribute entry d i a = printed_value attribute entry e i a).
  { intros i a Hi. unfold printed_value. cbn [objects d e common].
    assert (E : nth_error l i = nth_error m i); [|rewrite E; reflexivity].
    rewrite <- (firstn_skipn 5 l), <- (firstn_skipn 5 m), Ef.
    destruct (Nat.lt_ge_cases i (List.length (firstn 5 m))) as [H|H].
    - rewrite !nth_error_app1 by auto. reflexivity.
    - assert (L : List.length m <= i) by (rewrite firstn_length in H; lia).
      rewrite (proj2 (nth_error_None _ _)), (proj2 (nth_error_None _ _)); auto.
      + rewrite firstn_skipn. auto.
      + rewrite app_length, skipn_length, El, firstn_length. lia. }
  assert (Hc : forall i attrs space idx last string, i < 5 -> print_cells attribute entry d i attrs space idx last string = print_cells attribute entry e i attrs space idx last string).
  { intros i attrs space. induction attrs as [|a attrs IH]; intros idx last string Hi; [reflexivity|]. cbn [print_cells]. rewrite Hv by auto.
    destruct (printed_value attribute entry e i a); cbn [bind]; [|reflexivity]. destruct (of_option IndexError (nth_error space idx)); cbn [bind]; [|reflexivity]. apply IH. auto. }
  assert (Hs : forall count space, count <= 5 -> print_slice attribute entry d count space = print_slice attribute entry e count space).
  { intros count space Hk. unfold print_slice. assert (G : forall l acc, (forall i, In i l -> i < 5) ->
      foldM (fun string index => let* line := print_object attribute entry d index space in Ok (string ++ [line_feed] ++ line)) l acc =
      foldM (fun string index => let* line := print_object attribute entry e index space in Ok (string ++ [line_feed] ++ line)) l acc).
    { induction l0 as [|i l0 IH]; intros acc H; [reflexivity|]. cbn [foldM]. unfold print_object at 1 3.
      change (printed_attributes d) with (printed_attributes e). rewrite Hc by (apply H; left; auto).
      destruct (print_cells attribute entry e i _ space 0 _ []); cbn [bind]; [|reflexivity]. apply IH. intros; apply H; right; auto. }
    apply G. intros i Hi. apply in_seq in Hi. lia. }
  unfold str_dataset. cbn [objects d e].
  assert (Ep : prefix d = prefix e) by (unfold prefix; cbn [objects d e]; rewrite El; reflexivity).
  rewrite Ep. change (print_titles d) with (print_titles e).
  destruct l as [|x l], m as [|y m]; try discriminate; [reflexivity|].
  destruct (print_titles e) as [[title space]|]; cbn [bind]; [|reflexivity].
  assert (Eh : head_count d = head_count e) by (unfold head_count; cbn [objects d e]; rewrite Ef; reflexivity).
  assert (Et : tail_count d = tail_count e) by (unfold tail_count; cbn [objects d e]; rewrite !skipn_length, El; reflexivity).
  rewrite Hs by (unfold head_count; rewrite firstn_length; lia). rewrite Eh.
  destruct (print_slice attribute entry e (head_count e) space); cbn [bind]; [|reflexivity]. rewrite El.
  rewrite Hs by (unfold tail_count; rewrite skipn_length; lia). rewrite Et. reflexivity.
Qed.

(** So a table of six objects does not show the last one. *)
Theorem C66_all_objects_refuted : exists (d : dataset str) v,
  List.length (objects d) = 6 /\ nth_error (objects d) 5 = Some v /\ columns d [chars "name"; chars "mass"] /\
  readable (fun o _ => Some o) d [chars "name"; chars "mass"] /\ List.length v <= 13 /\
  exists s, str_dataset (fun o _ => Some o) (fun _ _ => []) d = Ok s /\ contains v s = false.
Proof.
  exists (Dataset (chars "Dataset") (chars "cars") [] (map chars ["a"; "b"; "c"; "d"; "e"; "Last"]%string) [chars "mass"]), (chars "Last").
  split; [reflexivity|]. split; [reflexivity|].
  split. { right. split; [cbn; intuition discriminate|reflexivity]. }
  split. { intros o a _ _. left. discriminate. } split; [cbn; lia|].
  eexists. split; [vm_compute; reflexivity|]. vm_compute. reflexivity.
Qed.

(** When the first column has a name of more than ten characters, printing raises. *)
Theorem C66_long_first_refuted : forall obj attribute entry (d : dataset obj) first others,
  columns d (first :: others) -> objects d <> [] -> 10 < List.length first ->
  str_dataset attribute entry d = Err UnboundLocalError.
Proof.
  intros obj attribute entry d first others Hc Ho Hf. pose proof (columns_printed d _ Hc) as Ep.
  unfold str_dataset, print_titles. rewrite Ep. cbn [titles].
  replace (16 <? List.length first + 6) with true by (symmetry; apply Nat.ltb_lt; lia). cbn [of_option bind].
  destruct (objects d); [congruence|reflexivity].
Qed.

(** This is met by a dataset whose objects have their name after another attribute. *)
Definition cars : dataset nat := Dataset (chars "Dataset") (chars "") (chars "0x7f") [1; 2; 3] [chars "mass"; chars "displacement"].
Example table_case : columns cars (chars "name" :: common cars) /\ readable (fun o _ => Some (number o)) cars (chars "name" :: common cars) /\
  widths 0 (chars "name" :: common cars) = [16; 16; 18] /\
  str_dataset (fun o a => Some (number (1000 * o) ++ a)) (fun _ _ => []) cars = Ok (lines [
    chars "Dataset 0x7f: 3 samples, 2 features";
    chars "|      Name      |      Mass      |   Displacement   |";
    chars "------------------------------------------------------";
    chars "|       1000name |       1000mass | 1000displacem... |";
    chars "|       2000name |       2000mass | 2000displacem... |";
    chars "|       3000name |       3000mass | 3000displacem... |"; []]).
Proof.
  split. { right. split; [cbn; intuition discriminate|reflexivity]. }
  split. { intros o a _ _. left. discriminate. } split; vm_compute; reflexivity.
Qed.
Example long_first_case : columns (Dataset (chars "Dataset") [] [] [1] [chars "displacement"; chars "name"]) [chars "displacement"; chars "name"] /\
  10 < List.length (chars "displacement").
Proof. split; [left; split; [right; left; reflexivity|reflexivity]|cbn; lia]. Qed.

Print Assumptions C66_table.
Print Assumptions C66_empty.
Print Assumptions C66_last_objects_refuted.
Print Assumptions C66_all_objects_refuted.
Print Assumptions C66_long_first_refuted.

(** Proofs about the sheets of a workbook (C53). *)
From Coq Require Import Ascii String ZArith QArith Bool Arith Lia.
From Verif Require Import Base BaseProofs TableModel TableProofs ExcelModel ExcelSpec ExcelProofs ExcelWritten ExcelRead.
From Verif Require BreakdownModel BreakdownSpec BreakdownProofs BreakdownOrder.
From Coq Require Import List Permutation Sorted.
Import ListNotations.
Open Scope list_scope.
Open Scope nat_scope.

Definition le_key (k k' : string) : Prop := String.leb k k' = true.

Lemma insert_sorted {A} (e : string * A) l : StronglySorted le_key (map fst l) -> StronglySorted le_key (map fst (insert_key e l)).
Proof.
  induction l as [|f l IH]; simpl; intros H; [constructor; constructor|].
  inversion H as [|? ? H1 H2]. subst. destruct (String.leb (fst e) (fst f)) eqn:E; simpl.
  - constructor; auto. constructor; auto. eapply Forall_impl; [|exact H2]. intros k Hk. eapply leb_trans; eauto.
  - constructor; auto. apply leb_total in E. rewrite Forall_forall in *. intros k Hk.
    apply in_map_iff in Hk. destruct Hk as (g & <- & Hg). apply (Permutation_in g (insert_perm e l)) in Hg.
    destruct Hg as [<-|Hg]; auto. apply H2. apply in_map. auto.
Qed.

Lemma sort_sorted {A} (l : list (string * A)) : StronglySorted le_key (map fst (sort_keys l)).
Proof. induction l as [|e l IH]; simpl; [constructor|]. apply insert_sorted. auto. Qed.

Lemma sorted_unique l : forall l', StronglySorted le_key l -> StronglySorted le_key l' -> Permutation l l' -> l = l'.
Proof.
  induction l as [|x l IH]; intros l' S S' P.
  - apply Permutation_nil in P. auto.
  - destruct l' as [|y l']; [symmetry in P; apply Permutation_nil in P; discriminate|].
    inversion S as [|? ? S1 S2]. inversion S' as [|? ? S1' S2']. subst.
    assert (E : x = y).
    { assert (Hx : In x (y :: l')) by (eapply Permutation_in; [exact P|simpl; auto]).
      assert (Hy : In y (x :: l)) by (eapply Permutation_in; [symmetry; exact P|simpl; auto]).
      destruct Hx as [Hx|Hx]; auto. destruct Hy as [Hy|Hy]; auto.
      rewrite Forall_forall in *. apply leb_antisym; [apply S2; auto|apply S2'; auto]. }
    subst y. f_equal. apply IH; auto. eapply Permutation_cons_inv; eauto.
Qed.

Lemma keys_columns a : Permutation (map fst (columns a)) (shown_keys a).
Proof.
  unfold columns, shown_keys. rewrite sort_perm. erewrite filter_ext; [reflexivity|]. intros [k x]. cbn [fst].
  rewrite public_prefix. reflexivity.
Qed.

Lemma builtins_spec l : is_builtins_list l = true <-> Forall builtin l.
Proof.
  unfold is_builtins_list. rewrite forallb_forall, Forall_forall. split; intros H x Hx; specialize (H x Hx); destruct x; simpl in *; try discriminate; auto; contradiction.
Qed.
Lemma not_builtins l : is_builtins_list l = false <-> ~ Forall builtin l.
Proof. rewrite <- builtins_spec. symmetry. apply not_true_iff_false. Qed.

Lemma cell_at_stored s r cs n cl : nth_error (grid s) r = Some cs -> nth_error cs n = Some cl -> cell_at (stored_sheet s) (S r) (S n) = stored cl.
Proof.
  intros H Hc. apply (cell_at_row _ r _ (map stored cs)); simpl; rewrite nth_error_map; [rewrite H|rewrite Hc]; auto.
Qed.

Section Sheets.
Variable same : nat -> nat -> bool.
Hypothesis same_refl : forall a, same a a = true.
Hypothesis same_sym : forall a b, same a b = true -> same b a = true.
Hypothesis same_trans : forall a b c, same a b = true -> same b c = true -> same a c = true.
Variable pystr : value -> string.
Variable round6 : Q -> Q.
Variables (M C : string) (I : nat) (A : list (string * value)).
Notation v := (VObj M C I A).
Notation members := (members same v).
Notation rows := (object_to_sheet_row same (paths_of same v)).
Notation value_cell := (value_cell same pystr round6 rows).
Notation object_row := (object_row same pystr round6 rows).
Notation shown := (shown same pystr round6 v).
Hypothesis Sv : sound same v.
Hypothesis Wv : well_named v.

Definition reached (x : value) : Prop := In x (objects v) /\ (x = v \/ exists c p, In (c, id_of x, p) (visited v)).

Lemma shown_cell x k z cl : reached x -> In (k, z) (dict_of x) -> public k = true -> value_cell z = Ok cl ->
  shown z (content cl) (link cl).
Proof.
  intros [Ix Rx] Hz Pk E.
  assert (Nk : k <> ""%string).
  { intros ->. destruct (Wv x Ix) as [_ N]. apply N. apply (in_map fst _ _ Hz). }
  destruct z as [|b|n|q|s|l|l|l|d|m c i a]; unfold ExcelModel.value_cell in E; cbn [compute_cell_link cell_content bind str] in E.
  - injection E as <-. apply shown_plain. simpl; auto.
  - injection E as <-. apply shown_plain. simpl; auto.
  - injection E as <-. apply shown_plain. simpl; auto.
  - injection E as <-. apply shown_float.
  - injection E as <-. apply shown_text.
  - destruct l as [|y l].
    + injection E as <-. simpl. apply shown_values. constructor.
    + destruct (is_builtins_list (y :: l)) eqn:B; injection E as <-.
      * apply (shown_values same pystr round6 v (y :: l)). apply builtins_spec. auto.
      * apply (shown_list same pystr round6 v y l). apply not_builtins. auto.
  - injection E as <-. apply shown_plain. simpl; auto.
  - destruct l as [|y l].
    + injection E as <-. apply (shown_set same pystr round6 v []). constructor.
    + destruct (is_builtins_list (y :: l)) eqn:B; [|discriminate]. injection E as <-.
      apply (shown_set same pystr round6 v (y :: l)). apply builtins_spec. auto.
  - destruct d as [|[k' y] d]; injection E as <-.
    + apply (shown_empty_dict same pystr round6 v).
    + apply (shown_dict same pystr round6 v k' y d).
  - destruct (visited_attribute same v Sv x k m c i a Ix Rx Hz Pk Nk) as [p Hp].
    destruct (row_of_visited same same_refl same_sym same_trans v Sv c i p Hp) as (n & j & q & G & Hn & S & o & Ho & So).
    rewrite G in E. injection E as <-. cbn [content link]. replace (n + 2 + 2) with (4 + n) by lia.
    eapply shown_object; eauto.
Qed.

Lemma name_cell_shown a cl : name_cell a = Ok cl -> link cl = None /\ shown_name a (content cl).
Proof. unfold name_cell, shown_name. destruct (get "name" a) as [[]|]; intros E; inversion E; simpl; auto. Qed.

(** a row that was written *)
Lemma row_shown s r x path cells : reached x -> nth_error (grid s) r = Some cells -> object_row (dict_of x) path = Ok cells ->
  cell_is (stored_sheet s) (S r) 1 (CText path) None
  /\ (exists sc, shown_name (dict_of x) sc /\ cell_is (stored_sheet s) (S r) 2 sc None)
  /\ forall n key z, nth_error (map fst (columns (dict_of x))) n = Some key -> In (key, z) (dict_of x) ->
       exists sc l, shown z sc l /\ cell_is (stored_sheet s) (S r) (3 + n) sc l.
Proof.
  intros Rx Hr E. unfold ExcelModel.object_row in E. destruct (name_cell (dict_of x)) as [nc|] eqn:En; [|discriminate]. cbn [bind] in E.
  destruct (mapM (fun kx => value_cell (snd kx)) (columns (dict_of x))) as [cs|] eqn:Ec; [|discriminate]. cbn [bind] in E. injection E as <-.
  destruct (name_cell_shown _ _ En) as [Ln Sn].
  split; [|split].
  - unfold cell_is. rewrite (cell_at_stored s r _ 0 (text path) Hr eq_refl). reflexivity.
  - exists (content nc). split; auto. unfold cell_is. rewrite (cell_at_stored s r _ 1 nc Hr eq_refl). unfold stored. rewrite Ln. auto.
  - intros n key z Hk Hz. rewrite nth_error_map in Hk. destruct (nth_error (columns (dict_of x)) n) as [[key' z']|] eqn:Hc; [|discriminate].
    injection Hk as ->. pose proof (nth_error_In _ _ Hc) as Hi. apply columns_in in Hi. destruct Hi as (Hi & Pk & _).
    assert (z' = z) as ->.
    { destruct (Wv x (proj1 Rx)) as [N _]. apply (in_get _ _ _ N) in Hi. apply (in_get _ _ _ N) in Hz. congruence. }
    destruct (forall2_nth _ _ _ (mapM_forall _ _ _ Ec) n _ Hc) as (cl & Hcl & Ecl). cbn [snd] in Ecl.
    exists (content cl), (link cl). split; [eapply shown_cell; eauto|].
    unfold cell_is. change (3 + n) with (S (2 + n)). rewrite (cell_at_stored s r _ (2 + n) cl Hr); [reflexivity|exact Hcl].
Qed.

Lemma header_shown s a : nth_error (grid s) 2 = Some (header_row a) ->
  cell_is (stored_sheet s) 3 1 (CText "Path") None /\ cell_is (stored_sheet s) 3 2 (CText "name") None
  /\ forall n key, nth_error (map fst (columns a)) n = Some key -> cell_is (stored_sheet s) 3 (3 + n) (CText key) None.
Proof.
  intros H. split; [|split].
  - unfold cell_is. rewrite (cell_at_stored s 2 _ 0 _ H eq_refl). reflexivity.
  - unfold cell_is. rewrite (cell_at_stored s 2 _ 1 _ H eq_refl). reflexivity.
  - intros n key Hk. unfold cell_is. change (3 + n) with (S (2 + n)).
    rewrite (cell_at_stored s 2 _ (2 + n) (text key) H); [reflexivity|].
    unfold header_row. simpl. rewrite nth_error_map in Hk |- *. destruct (nth_error (columns a) n) as [[k z]|]; [|discriminate]. simpl in Hk. injection Hk as ->. auto.
Qed.

Lemma describes_sheet s m c row1 more objs rs o P :
  grid s = row1 :: (text m :: text c :: more) :: header_row (dict_of o) :: rs ->
  In (o, P) objs ->
  Forall2 (fun (xP : value * (string -> Prop)) cells => reached (fst xP)
             /\ exists path, snd xP path /\ object_row (dict_of (fst xP)) path = Ok cells) objs rs ->
  describes same pystr round6 v (stored_sheet s) m c objs.
Proof.
  intros G Io F. destruct (header_shown s (dict_of o)) as (H1 & H2 & H3); [rewrite G; reflexivity|].
  split; [|split; [|split; [|split; [|split]]]]; auto.
  - unfold cell_is. rewrite (cell_at_stored s 1 (text m :: text c :: more) 0 (text m)); [reflexivity|rewrite G; auto|auto].
  - unfold cell_is. rewrite (cell_at_stored s 1 (text m :: text c :: more) 1 (text c)); [reflexivity|rewrite G; auto|auto].
  - unfold height, stored_sheet. cbn [grid]. rewrite map_length, G. simpl. rewrite (forall2_length _ _ _ F). auto.
  - exists (map fst (columns (dict_of o))). split; [apply sort_sorted|]. split; [exists o, P; split; auto; apply keys_columns|].
    split; auto. intros n x Q Hn. destruct (forall2_nth _ _ _ F n _ Hn) as (cells & Hc & Rx & path & HP & E). cbn [fst snd] in *.
    assert (Hg : nth_error (grid s) (3 + n) = Some cells) by (rewrite G; exact Hc).
    destruct (row_shown s (3 + n) x path cells Rx Hg E) as (R1 & R2 & R3).
    split; [exists path; auto|]. split; [exact R2|].
    intros Pm n' key z Hk Hz. apply (R3 n' key z); auto.
    rewrite <- Hk. f_equal. apply sorted_unique; [apply sort_sorted|apply sort_sorted|].
    etransitivity; [apply keys_columns|]. symmetry. auto.
Qed.

(** ** The whole workbook *)

Definition paths_to (c : string) (j : nat) (path : string) : Prop := exists o, In (c, o, path) (visited v) /\ same o j = true.
Definition listed (c : string) : list (value * (string -> Prop)) := map (fun j => (object_of v j, paths_to c j)) (members c).

Lemma class_described c refs s : In (c, refs) (paths_of same v) -> class_sheet same pystr round6 v rows (c, refs) = Ok s ->
  title s = c /\ exists j m a, hd_error (members c) = Some j /\ object_of v j = VObj m c j a
    /\ describes same pystr round6 v (stored_sheet s) m c (listed c).
Proof.
  intros H E. destruct (paths_spec same same_refl same_sym same_trans v) as (Ec & Nc & Ps).
  destruct (Ps _ _ H) as (Em & _ & _ & Pv).
  destruct (class_sheet_spec same same_refl same_sym same_trans v Sv pystr round6 c refs H)
    as (o & p & o' & p' & m & a & Ho & Ho' & Eo & Es).
  rewrite Es in E. destruct (rows_written same v pystr round6 refs) as [rs|] eqn:Er; [|discriminate]. cbn [bind] in E. injection E as <-.
  split; auto. exists o, m, a. split; [rewrite <- Em; destruct refs; [discriminate|]; injection Ho as ->; auto|]. split; auto.
  eapply (describes_sheet _ m c _ _ _ rs (object_of v o') (paths_to c o')); [reflexivity| |].
  - unfold listed. apply in_map_iff. exists o'. split; auto. rewrite <- Em. apply (in_map fst _ _ Ho').
  - unfold listed. rewrite <- Em, map_map. apply mapM_forall in Er. apply forall2_both in Er.
    assert (Gen : forall l rs', Forall2 (fun e cells => In e refs /\ In cells rs
        /\ object_row (dict_of (object_of v (fst e))) (snd e) = Ok cells) l rs' ->
      Forall2 (fun (xP : value * (string -> Prop)) cells => reached (fst xP)
             /\ exists path, snd xP path /\ object_row (dict_of (fst xP)) path = Ok cells)
        (map (fun x => (object_of v (fst x), paths_to c (fst x))) l) rs'); [|apply Gen; exact Er].
    intros l rs' F. induction F as [|[j q] cells l rs' (Hi & _ & E) F IH]; simpl; constructor; auto.
    cbn [fst snd] in *. destruct (Pv j q Hi) as [[q' Hq] (i & Hp & Si)].
    destruct (visited_is same v Sv c j q' Hq) as (m' & a' & Ej & Ij). split.
    + rewrite Ej. split; auto. right. simpl. eauto.
    + exists q. split; auto. exists i. auto.
Qed.

Lemma sheets_described wb : written same pystr round6 v = Ok wb ->
  exists main others, wb = main :: others
    /\ title main = ("Object " ++ C)%string
    /\ describes same pystr round6 v main M C [(v, fun path => path = ""%string)]
    /\ Forall2 (fun c s => title s = c /\ exists j m a, hd_error (members c) = Some j /\ object_of v j = VObj m c j a
                           /\ describes same pystr round6 v s m c (listed c)) (classes_of v) others.
Proof.
  intros E. unfold written in E.
  destruct (main_sheet same pystr round6 rows M C A) as [main|] eqn:Em; [|discriminate]. cbn [bind] in E.
  destruct (mapM (class_sheet same pystr round6 v rows) (paths_of same v)) as [others|] eqn:Eo; [|discriminate]. cbn [bind] in E.
  injection E as <-. exists (stored_sheet main), (map stored_sheet others). split; auto.
  assert (Rv : reached v) by (split; [simpl; auto|auto]).
  split; [|split].
  - unfold main_sheet in Em. destruct (of_option _ _); [|discriminate]. cbn [bind] in Em. destruct (name_cell A); [|discriminate]. cbn [bind] in Em.
    destruct (object_row A ""); [|discriminate]. cbn [bind] in Em. injection Em as <-. auto.
  - unfold main_sheet in Em. destruct (of_option _ _); [|discriminate]. cbn [bind] in Em. destruct (name_cell A) as [nc|]; [|discriminate]. cbn [bind] in Em.
    destruct (object_row A "") as [row|] eqn:Er; [|discriminate]. cbn [bind] in Em. injection Em as <-.
    eapply (describes_sheet _ M C _ _ _ [row] v); [reflexivity|simpl; auto|].
    constructor; [|constructor]. split; auto. exists ""%string. split; [reflexivity|exact Er].
  - destruct (paths_spec same same_refl same_sym same_trans v) as (Ec & _ & _). rewrite <- Ec.
    apply mapM_forall in Eo. apply forall2_both in Eo.
    assert (Gen : forall l ss, Forall2 (fun cr s => In cr (paths_of same v) /\ In s others /\ class_sheet same pystr round6 v rows cr = Ok s) l ss ->
      Forall2 (fun c s => title s = c /\ exists j m a, hd_error (members c) = Some j /\ object_of v j = VObj m c j a
                           /\ describes same pystr round6 v s m c (listed c)) (map fst l) (map stored_sheet ss)); [|apply Gen; auto].
    intros l ss F. induction F as [|[c refs] s l ss (Hi & _ & E) F IH]; simpl; constructor; auto.
    destruct (class_described c refs s Hi E) as [T D]. auto.
Qed.

(** each object that is visited has one row *)
Lemma one_row c i p : In (c, i, p) (visited v) -> exists n j, nth_error (members c) n = Some j /\ same j i = true
  /\ forall n' j', nth_error (members c) n' = Some j' -> same j' i = true -> n' = n.
Proof.
  intros H. destruct (member_of same same_refl same_sym v c i p H) as (n & j & Hn & S). exists n, j. split; auto. split; auto.
  intros n' j' Hn' S'. destruct (paths_of_class same same_refl same_sym same_trans v c (class_of_visited v c i p H)) as [refs Hr].
  destruct (paths_spec same same_refl same_sym same_trans v) as (_ & _ & Ps). destruct (Ps _ _ Hr) as (Em & _ & D & _).
  rewrite <- Em, nth_error_map in Hn, Hn'.
  destruct (nth_error refs n) as [[k q]|] eqn:Hq; [|discriminate]. destruct (nth_error refs n') as [[k' q']|] eqn:Hq'; [|discriminate].
  injection Hn as ->. injection Hn' as ->. eapply D; [exact Hq'|exact Hq|]. eapply same_trans; [exact S'|]. apply same_sym. auto.
Qed.

(** ** Success *)

Lemma value_cell_ok z : (exists cl, value_cell z = Ok cl) <-> match z with VSet l => Forall builtin l | _ => True end.
Proof.
  unfold ExcelModel.value_cell, compute_cell_link.
  destruct z as [| | | | |[|y l]|l|[|y l]|[|[k y] d]|]; try (split; [auto|intros _; eexists; reflexivity]).
  destruct (is_builtins_list (y :: l)) eqn:B.
    - split; [intros _; apply builtins_spec; auto|]. intros _. eexists. reflexivity.
    - split; [intros [cl E]; discriminate|]. intros F. apply builtins_spec in F. congruence.
Qed.

Lemma mapM_ok_iff {X Y} (f : X -> res Y) l : (exists l', mapM f l = Ok l') <-> forall x, In x l -> exists y, f x = Ok y.
Proof.
  split.
  - intros [l' E] x Hx. destruct (forall2_in_l _ _ _ (mapM_forall _ _ _ E) x Hx) as (y & _ & Ey). eauto.
  - intros H. destruct (exists_forall2 (fun x y => f x = Ok y) l H) as [l' F]. exists l'. apply mapM_ok. auto.
Qed.

Lemma object_row_ok a path : (exists cells, object_row a path = Ok cells) <-> exportable a.
Proof.
  unfold ExcelModel.object_row, exportable.
  assert (Nm : (exists cl, name_cell a = Ok cl) <-> match get "name" a with
    | Some (VList _ | VTuple _ | VSet _ | VDict _ | VObj _ _ _ _) => False | _ => True end).
  { unfold name_cell. destruct (get "name" a) as [[]|]; split; try tauto; try (intros _; eexists; reflexivity); intros [cl E]; discriminate. }
  rewrite <- Nm. clear Nm.
  assert (Cs : (exists cs, mapM (fun kx => value_cell (snd kx)) (columns a) = Ok cs) <->
     forall k l, In (k, VSet l) a -> (forall k', k <> String "_" k') -> k <> "name"%string -> Forall builtin l).
  { rewrite mapM_ok_iff. split.
    - intros H k l Hk Pk Nk. destruct (H (k, VSet l)) as [cl E]; [apply columns_in; rewrite public_iff; auto|].
      apply (proj1 (value_cell_ok (VSet l))). eauto.
    - intros H [k z] Hk. apply columns_in in Hk. rewrite public_iff in Hk. destruct Hk as (Hk & Pk & Nk). apply value_cell_ok. cbn [snd]. destruct z; auto. eapply H; eauto. }
  rewrite <- Cs. clear Cs. destruct (name_cell a) as [nc|]; cbn [bind].
  - destruct (mapM _ (columns a)) as [cs|]; cbn [bind].
    + split; intros _; [split|]; eexists; reflexivity.
    + split; [intros [cells E]; discriminate|]. intros [_ [cs E]]. discriminate.
  - split; [intros [cells E]; discriminate|]. intros [[nc E] _]. discriminate.
Qed.

Lemma written_iff : (exists wb, written same pystr round6 v = Ok wb) <->
  In "name"%string (map fst A) /\ exportable A
  /\ forall c j, In j (members c) -> exportable (dict_of (object_of v j)).
Proof.
  destruct (paths_spec same same_refl same_sym same_trans v) as (Ec & Nc & Ps).
  assert (Cl : (exists others, mapM (class_sheet same pystr round6 v rows) (paths_of same v) = Ok others) <->
     forall c j, In j (members c) -> exportable (dict_of (object_of v j))).
  { rewrite mapM_ok_iff. split.
    - intros H c j Hj.
      assert (Hc : exists p, In (c, j, p) (visited v)).
      { apply BreakdownOrder.dedup_in in Hj. apply in_map_iff in Hj. destruct Hj as ([[c' j'] p] & E & Hj). simpl in E. subst j'.
        apply filter_In in Hj. destruct Hj as [Hj T]. simpl in T. apply String.eqb_eq in T. subst c'. eauto. }
      destruct Hc as [p Hp]. destruct (paths_of_class same same_refl same_sym same_trans v c (class_of_visited v c j p Hp)) as [refs Hr].
      destruct (H _ Hr) as [s E]. destruct (class_sheet_spec same same_refl same_sym same_trans v Sv pystr round6 c refs Hr)
        as (o & q & o' & p' & m & a & _ & _ & _ & Es). rewrite Es in E.
      destruct (rows_written same v pystr round6 refs) as [rs|] eqn:Er; [|discriminate].
      destruct (Ps _ _ Hr) as (Em & _). rewrite <- Em in Hj. apply in_map_iff in Hj. destruct Hj as ([j' q'] & Ej & Hj). simpl in Ej. subst j'.
      destruct (proj1 (mapM_ok_iff _ _) (ex_intro _ rs Er) _ Hj) as [cells E']. apply (object_row_ok _ q'). eauto.
    - intros H [c refs] Hr. destruct (class_sheet_spec same same_refl same_sym same_trans v Sv pystr round6 c refs Hr)
        as (o & q & o' & p' & m & a & _ & _ & _ & ->).
      assert (exists rs, rows_written same v pystr round6 refs = Ok rs) as [rs ->].
      { apply mapM_ok_iff. intros [j p] Hj. apply object_row_ok. apply (H c). destruct (Ps _ _ Hr) as (Em & _). rewrite <- Em.
        apply (in_map fst _ _ Hj). }
      eexists. reflexivity. }
  rewrite <- Cl. clear Cl. unfold written, main_sheet.
  pose proof (object_row_ok A "") as Ro.
  assert (Nm : In "name"%string (map fst A) <-> exists x, get "name" A = Some x).
  { split; [intros H; apply get_some_key; auto|]. intros [x E]. apply get_in in E. apply (in_map fst _ _ E). }
  rewrite Nm, <- Ro. clear Nm Ro. unfold ExcelModel.object_row.
  destruct (get "name" A) as [x|]; cbn [of_option bind].
  - destruct (name_cell A) as [nc|]; cbn [bind].
    + destruct (mapM (fun kx => value_cell (snd kx)) (columns A)) as [cs|]; cbn [bind].
      * destruct (mapM (class_sheet same pystr round6 v rows) (paths_of same v)) as [os|]; cbn [bind].
        -- split; intros _; [split; [|split]|]; eexists; reflexivity.
        -- split; [intros [wb E]; discriminate|]. intros (_ & _ & os & E). discriminate.
      * split; [intros [wb E]; discriminate|]. intros (_ & [cells E] & _). discriminate.
    + split; [intros [wb E]; discriminate|]. intros (_ & [cells E] & _). discriminate.
  - split; [intros [wb E]; discriminate|]. intros ([x E] & _). discriminate.
Qed.
End Sheets.

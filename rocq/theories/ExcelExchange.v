(** Proof that the exchange of an object by a workbook gives it back (C54). *)
From Coq Require Import Ascii String ZArith QArith Bool Arith Lia.
From Verif Require Import Base BaseProofs TableModel TableProofs ExcelModel ExcelSpec ExcelProofs ExcelWritten ExcelRead.
From Verif Require BreakdownModel BreakdownSpec BreakdownProofs BreakdownOrder.
From Coq Require Import List Permutation.
Import ListNotations.
Open Scope list_scope.
Open Scope nat_scope.

Lemma extend_prefix r : forall p, exists s, fold_left BreakdownModel.extend r p = (p ++ s)%string.
Proof.
  induction r as [|k r IH]; intros p; simpl; [exists ""%string; rewrite sapp_nil; auto|].
  destruct (IH (BreakdownModel.extend p k)) as [s ->]. unfold BreakdownModel.extend.
  destruct (String.eqb_spec p ""); [subst; simpl; eauto|]. exists ("." ++ k ++ s)%string.
  rewrite !sapp_assoc. auto.
Qed.

Lemma seq_nth {A B} (f : nat -> A) (P : A -> B -> Prop) l : forall s,
  (forall n x, nth_error l n = Some x -> P (f (s + n)) x) -> Forall2 P (map f (seq s (List.length l))) l.
Proof.
  induction l as [|x l IH]; intros s H; simpl; constructor.
  - specialize (H 0 x eq_refl). rewrite Nat.add_0_r in H. auto.
  - apply IH. intros n y Hn. specialize (H (S n) y Hn). rewrite Nat.add_succ_r in H. auto.
Qed.

Section Exchange.
Variable same : nat -> nat -> bool.
Hypothesis same_refl : forall a, same a a = true.
Hypothesis same_sym : forall a b, same a b = true -> same b a = true.
Hypothesis same_trans : forall a b c, same a b = true -> same b c = true -> same a c = true.
Variable pystr : value -> string.
Variable literal : string -> option value.
Variable round6 : Q -> Q.
Variable classes : string -> res (list (string * option value)).
Notation plain_class := (plain_class pystr literal round6 classes).
Notation kept := (kept pystr literal round6).
Notation evaluated := (evaluated literal).

Variables (M C : string) (I : nat) (A : list (string * value)).
Notation v := (VObj M C I A).
Notation members := (members same v).
Notation rows := (object_to_sheet_row same (paths_of same v)).
Notation value_cell := (value_cell same pystr round6 rows).
Notation alone := (alone same pystr literal round6 v).
Notation among := (among same pystr literal round6 v).

Hypothesis X : exchangeable same pystr literal round6 classes v.

Lemma Sv : sound same v. Proof. apply X. Qed.
Lemma X_same x y : In x (objects v) -> In y (objects v) -> same (id_of x) (id_of y) = true -> canon x = canon y.
Proof. apply X. Qed.
Lemma X_module m m' c i i' a a' : In (VObj m c i a) (objects v) -> In (VObj m' c i' a') (objects v) -> m = m'.
Proof. apply X. Qed.
Lemma X_plain x : In x (objects v) -> plain_class x. Proof. apply X. Qed.

(** what the reader gets of a cell *)
Definition reads (f : cell -> res value) (kx : string * value) (cl : cell) : Prop :=
  exists r, f cl = Ok r /\ canon (evaluated r) = canon (snd kx).
(** a cell that was written for an attribute *)
Definition holds (kx : string * value) (cl : cell) : Prop :=
  exists cl0, value_cell (snd kx) = Ok cl0 /\ cl = stored cl0.

Definition plain_value (c : cell) : res value := Ok (scalar_value (content c)).

(** the row of an object *)
Definition row_of_object (a : list (string * value)) (row : list cell) : Prop :=
  exists s cells n, get "name" a = Some (VStr s) /\ row = stored (text s) :: cells ++ repeat blank n
    /\ Forall2 holds (columns a) cells.

Lemma row_creates f m c i a h data row :
  plain_class (VObj m c i a) -> good_header a h -> row_of_object a row ->
  (forall s, f (stored (text s)) = plain_value (stored (text s))) -> f blank = plain_value blank ->
  (forall kx cl, In kx (columns a) -> In cl row -> holds kx cl -> reads f kx cl) ->
  exists values w, mapM f row = Ok values
    /\ create_object literal classes {| module_name := m; class_name := c; header := h; rows_of := data |} values = Ok w
    /\ canon w = canon (VObj m c i a).
Proof.
  intros P G (s & cells & n & Gn & -> & F) Fn Fb R.
  assert (V : exists vals, Forall2 (fun cl r => f cl = Ok r) cells vals
     /\ Forall2 (fun kx r => canon (evaluated r) = canon (snd kx)) (columns a) vals).
  { assert (R' : forall kx cl, In kx (columns a) -> In cl cells -> holds kx cl -> reads f kx cl).
    { intros kx cl Hk Hc. apply R; auto. simpl. right. apply in_app_iff. auto. }
    clear - F R'. induction F as [|kx cl cols cells H F IH]; [exists []; split; constructor|].
    destruct IH as (vals & V1 & V2); [intros kx' cl' Hk Hc; apply R'; simpl; auto|].
    destruct (R' kx cl (or_introl eq_refl) (or_introl eq_refl) H) as (r & R1 & R2). exists (r :: vals). split; constructor; auto. }
  destruct V as (vals & V1 & V2).
  set (nv := scalar_value (stored_scalar (CText s))).
  assert (E : mapM f (stored (text s) :: cells ++ repeat blank n) = Ok (nv :: vals ++ repeat VNone n)).
  { cbn [mapM]. rewrite Fn. cbn [plain_value bind]. rewrite mapM_app, (mapM_ok _ _ _ V1). cbn [bind].
    rewrite (mapM_repeat _ _ VNone n Fb). reflexivity. }
  destruct (create_ok pystr literal round6 classes m c i a h data nv vals (repeat VNone n) P G V2) as (w & W1 & W2).
  { intros s' Gs'. rewrite Gn in Gs'. injection Gs' as <-.
    destruct P as (_ & N & K & _). destruct (kept_name_get pystr literal round6 a N K) as (s' & Gs & Ks).
    rewrite Gn in Gs. injection Gs as <-. unfold nv. destruct Ks as [->|Ks]; [right; split; auto|].
    left. inversion Ks as [s1 St L| |w Hw]; [|contradiction]. subst. rewrite stored_text by auto. simpl. rewrite L.
    split; auto. apply St. }
  exists (nv :: vals ++ repeat VNone n), w. auto.
Qed.

(** ** Cells *)

Lemma kept_reads kx cl : kept (snd kx) -> holds kx cl -> link cl = None /\ reads plain_value kx cl.
Proof.
  intros K (cl0 & E & ->). destruct (kept_cell pystr literal round6 classes same rows (snd kx) K) as (cc & E' & V).
  rewrite E in E'. injection E' as ->. split; auto. exists (scalar_value (stored_scalar cc)). split; auto. rewrite V. auto.
Qed.

Definition reached (x : value) : Prop := In x (objects v) /\ (x = v \/ exists c p, In (c, id_of x, p) (visited v)).

Lemma path_storable c i q : In (c, i, q) (visited v) -> storable q.
Proof.
  intros H. apply visited_found in H. destruct H as (r & F & -> & N).
  destruct r as [|k r]; [simpl in N; congruence|]. simpl fold_left in *.
  assert (Hk : identifier k).
  { inversion F as [| | | |? ? ? ? ? ? ? ? Hk]. subst. apply filter_In in Hk. destruct Hk as [Hk _].
    apply in_map_iff in Hk. destruct Hk as ([k' z] & Ek & Hk). simpl in Ek. injection Ek as <- _.
    destruct (X_plain v (or_introl eq_refl)) as (_ & _ & _ & K & _). apply (K k'). apply (in_map fst _ _ Hk). }
  change (BreakdownModel.extend "" k) with k. destruct (extend_prefix r k) as [s ->].
  destruct Hk as [K1 K2]. destruct k as [|ch k]; [congruence|]. split; [discriminate|].
  intros s' E. simpl in E. injection E as -> _. simpl in K2. discriminate.
Qed.

Lemma object_cell x k m c i a : reached x -> In (k, VObj m c i a) (dict_of x) -> public k = true -> k <> ""%string ->
  exists n j q, nth_error (members c) n = Some j /\ same j i = true /\ In c (classes_of v)
    /\ (exists o, In (c, o, q) (visited v) /\ same o i = true)
    /\ storable q
    /\ value_cell (VObj m c i a) = Ok {| content := CText q; link := Some (c, n + 4) |}.
Proof.
  intros [Ix R] H P N.
  destruct (visited_attribute same v Sv x k m c i a Ix R H P N) as [p Hp].
  destruct (row_of_visited same same_refl same_sym same_trans v Sv c i p Hp) as (n & j & q & G & Hn & S & o & Ho & So).
  exists n, j, q. split; auto. split; auto. split; [eapply class_of_visited; eauto|]. split; [eauto|].
  split; [eapply path_storable; eauto|].
  unfold ExcelModel.value_cell, compute_cell_link, cell_content. rewrite G. cbn [bind]. do 4 f_equal. lia.
Qed.

Lemma list_cell c l : l <> [] -> Forall2 (fun x j => exists m i a, x = VObj m c i a /\ same j i = true) l (members c) ->
  value_cell (VList l) = Ok {| content := CText ("List of " ++ nat_str (List.length l) ++ " items"); link := Some (c, 2) |}.
Proof.
  intros N F. destruct F as [|x j l js (m & i & a & -> & _) F]; [congruence|]. reflexivity.
Qed.

Lemma member_object c n j : nth_error (members c) n = Some j -> exists m a, object_of v j = VObj m c j a /\ In (VObj m c j a) (objects v)
  /\ exists p, In (c, j, p) (visited v).
Proof.
  intros H. apply nth_error_In in H. apply BreakdownOrder.dedup_in in H.
  apply in_map_iff in H. destruct H as ([[c' j'] p] & E & H). simpl in E. subst j'. apply filter_In in H.
  destruct H as [H T]. simpl in T. apply String.eqb_eq in T. subst c'.
  destruct (visited_is same v Sv c j p H) as (m & a & E & Hi). exists m, a. split; [|split]; eauto.
Qed.

(** ** The workbook *)

Definition sheet_for (s : sheet) (m c : string) (objs : list value) : Prop :=
  content (cell_at s 2 1) = CText m /\ content (cell_at s 2 2) = CText c
  /\ (forall o, In o objs -> good_header (dict_of o) (map content (row_from s 3 2)))
  /\ (forall o, In o objs -> exists i a, o = VObj m c i a)
  /\ height s = 3 + List.length objs
  /\ (forall n o, nth_error objs n = Some o -> row_of_object (dict_of o) (row_from s (4 + n) 2)).

(** the attributes of a reached object can be written *)
Definition writable (x : value) : Prop := forall k z, In (k, z) (dict_of x) -> k <> "name"%string -> exists cl, value_cell z = Ok cl.

Lemma alone_writable after x : reached x -> attributes_are (alone after) x -> writable x.
Proof.
  intros Rx H k z Hz N. pose proof (X_plain x (proj1 Rx)) as P. 
  assert (Pk : public k = true /\ k <> ""%string).
  { destruct x; simpl in Hz; try tauto. destruct P as (_ & _ & _ & K & _). destruct (K k (in_map fst _ _ Hz)) as [[K1 _] K2]. rewrite public_iff. auto. }
  destruct (H k z Hz N) as [z K|m c i a j rest _ _ _ _|c l _ Nl F].
  - destruct (kept_cell pystr literal round6 classes same rows z K) as (cc & E & _). eauto.
  - destruct (object_cell x k m c i a Rx Hz (proj1 Pk) (proj2 Pk)) as (n & j' & q & _ & _ & _ & _ & _ & E). eauto.
  - eexists. eapply list_cell; eauto.
Qed.

Lemma among_writable x : reached x -> attributes_are among x -> writable x.
Proof.
  intros Rx H k z Hz N. pose proof (X_plain x (proj1 Rx)) as P. 
  assert (Pk : public k = true /\ k <> ""%string).
  { destruct x; simpl in Hz; try tauto. destruct P as (_ & _ & _ & K & _). destruct (K k (in_map fst _ _ Hz)) as [[K1 _] K2]. rewrite public_iff. auto. }
  destruct (H k z Hz N) as [z K|m c i a _].
  - destruct (kept_cell pystr literal round6 classes same rows z K) as (cc & E & _). eauto.
  - destruct (object_cell x k m c i a Rx Hz (proj1 Pk) (proj2 Pk)) as (n & j' & q & _ & _ & _ & _ & _ & E). eauto.
Qed.

Lemma object_row_ok x p : reached x -> writable x ->
  exists s cells, get "name" (dict_of x) = Some (VStr s)
    /\ object_row same pystr round6 rows (dict_of x) p = Ok (text p :: text s :: cells)
    /\ Forall2 (fun kx cl => value_cell (snd kx) = Ok cl) (columns (dict_of x)) cells.
Proof.
  intros [Ix _] W. pose proof (X_plain x Ix) as P. destruct x as [| | | | | | | | |m c i a]; try contradiction. simpl.
  destruct P as (_ & N & K & _). destruct (kept_name_get pystr literal round6 a N K) as (s & Gs & _).
  destruct (exists_forall2 (fun kx cl => value_cell (snd kx) = Ok cl) (columns a)) as [cells F].
  { intros [k z] H. apply columns_in in H. destruct H as (H & _ & Nk). destruct (W k z H Nk) as [cl E]. exists cl. exact E. }
  exists s, cells. split; auto. split; auto. unfold object_row, name_cell. rewrite Gs. cbn [bind].
  rewrite (mapM_ok _ _ _ F). reflexivity.
Qed.

Lemma header_good a row3 s : nth_error (grid s) 2 = Some (map stored row3) -> row3 = header_row a ->
  (forall k, In k (map fst a) -> identifier k) -> good_header a (map content (row_from s 3 2)).
Proof.
  intros H -> K. unfold header_row in H. simpl in H.
  rewrite (row_from_2 s 2 _ _ H). unfold pads. set (n := width s - 1 - _). exists n.
  rewrite map_app. simpl. f_equal. f_equal.
  - rewrite !map_map. apply map_ext_in. intros [k z] Hk. cbn [fst snd]. unfold stored, text, bare. cbn [content].
    apply stored_text. apply identifier_storable. apply K. apply columns_in in Hk. destruct Hk as [Hk _]. apply (in_map fst _ _ Hk).
  - induction n; simpl; congruence.
Qed.


Lemma row_good s r p x n cells : nth_error (grid s) r = Some (map stored (text p :: text n :: cells)) ->
  get "name" (dict_of x) = Some (VStr n) ->
  Forall2 (fun kx cl => value_cell (snd kx) = Ok cl) (columns (dict_of x)) cells ->
  row_of_object (dict_of x) (row_from s (S r) 2).
Proof.
  intros H G F. simpl in H. rewrite (row_from_2 s r _ _ H). unfold pads.
  exists n, (map stored cells). eexists. split; auto. split; [simpl; reflexivity|].
  clear - F. induction F as [|kx cl cols cells E F IH]; simpl; constructor; auto. exists cl. auto.
Qed.

Lemma identifiers x : In x (objects v) -> forall k, In k (map fst (dict_of x)) -> identifier k.
Proof.
  intros Hx k Hk. pose proof (X_plain x Hx) as P. destruct x; simpl in Hk; try tauto.
  destruct P as (_ & _ & _ & K & _). apply (K k Hk).
Qed.

Lemma member_reached c n j : nth_error (members c) n = Some j -> reached (object_of v j).
Proof.
  intros H. destruct (member_object c n j H) as (m & a & -> & Io & p & Hp). split; auto. right. simpl. eauto.
Qed.

Lemma member_writable c n j : In c (classes_of v) -> nth_error (members c) n = Some j -> writable (object_of v j).
Proof.
  intros Hc Hn. pose proof (member_reached c n j Hn) as R. destruct (member_object c n j Hn) as (m & a & E & Io & p & Hp).
  apply in_split in Hc. destruct Hc as (before & after & Ec).
  destruct X as (_ & _ & _ & _ & _ & Xc). specialize (Xc before c after Ec (object_of v j)).
  rewrite E in Xc, R |- *. specialize (Xc Io eq_refl (nth_error_In _ _ Hn)).
  destruct (members c) as [|j1 [|j2 js]]; eauto using alone_writable, among_writable.
Qed.

Lemma main_ok : exists s, main_sheet same pystr round6 rows M C A = Ok s /\ title s = ("Object " ++ C)%string
  /\ sheet_for (stored_sheet s) M C [v].
Proof.
  assert (R : reached v) by (split; [simpl; auto|auto]).
  assert (W : writable v) by (eapply alone_writable; eauto; apply X).
  destruct (object_row_ok v "" R W) as (n & cells & G & E & F). simpl in G, E, F.
  pose proof (X_plain v (or_introl eq_refl)) as P.
  unfold main_sheet. rewrite G. cbn [of_option bind]. unfold name_cell. rewrite G. cbn [bind]. rewrite E. cbn [bind].
  eexists. split; [reflexivity|]. split; [reflexivity|].
  destruct P as (_ & _ & _ & _ & Ic & Sm).
  split; [apply stored_text; auto|]. split; [apply stored_text, identifier_storable; auto|]. split; [|split; [|split; auto]].
  - intros o [<-|[]]. eapply header_good; [reflexivity|reflexivity|]. apply identifiers. simpl; auto.
  - intros o [<-|[]]. eauto.
  - intros [|k] o Ho; [injection Ho as <-|destruct k; discriminate].
    change (4 + 0) with (S 3). eapply row_good; [reflexivity|exact G|exact F].
Qed.

Lemma class_sheet_ok c refs : In (c, refs) (paths_of same v) ->
  exists s m, class_sheet same pystr round6 v rows (c, refs) = Ok s /\ title s = c
    /\ sheet_for (stored_sheet s) m c (map (object_of v) (members c)).
Proof.
  intros H. destruct (paths_spec same same_refl same_sym same_trans v) as (Ec & Nc & Ps).
  destruct (Ps _ _ H) as (Em & _ & _ & Pv).
  assert (Hc : In c (classes_of v)) by (rewrite <- Ec; apply (in_map fst _ _ H)).
  destruct (class_sheet_spec same same_refl same_sym same_trans v Sv pystr round6 c refs H)
    as (o & p & o' & p' & m & a & Ho & Ho' & Eo & ->).
  assert (Hn : forall k e, nth_error refs k = Some e -> nth_error (members c) k = Some (fst e)).
  { intros k e He. rewrite <- Em. rewrite nth_error_map, He. auto. }
  assert (Hr : exists rs, rows_written same v pystr round6 refs = Ok rs /\
     Forall2 (fun e r => exists n cells, r = text (snd e) :: text n :: cells
        /\ get "name" (dict_of (object_of v (fst e))) = Some (VStr n)
        /\ Forall2 (fun kx cl => value_cell (snd kx) = Ok cl) (columns (dict_of (object_of v (fst e)))) cells) refs rs).
  { destruct (exists_forall2 (fun e r => object_row same pystr round6 rows (dict_of (object_of v (fst e))) (snd e) = Ok r
        /\ exists n cells, r = text (snd e) :: text n :: cells
        /\ get "name" (dict_of (object_of v (fst e))) = Some (VStr n)
        /\ Forall2 (fun kx cl => value_cell (snd kx) = Ok cl) (columns (dict_of (object_of v (fst e)))) cells) refs) as [rs F].
    - intros e He. apply In_nth_error in He. destruct He as [k Hk]. pose proof (Hn k e Hk) as Hm.
      destruct (object_row_ok (object_of v (fst e)) (snd e) (member_reached _ _ _ Hm) (member_writable _ _ _ Hc Hm))
        as (n & cells & G & E & F).
      eexists. split; [exact E|]. eauto.
    - exists rs. split.
      + apply mapM_ok. eapply forall2_impl; [exact F|]. intros x y _ [E _]. exact E.
      + eapply forall2_impl; [exact F|]. intros x y _ [_ E]. exact E. }
  destruct Hr as (rs & -> & F). cbn [bind]. eexists. exists m. split; [reflexivity|]. split; [reflexivity|].
  assert (Mod : forall x, In x (map (object_of v) (members c)) -> exists i a', x = VObj m c i a' /\ In x (objects v)).
  { intros x Hx. apply in_map_iff in Hx. destruct Hx as (j & <- & Hj). apply In_nth_error in Hj. destruct Hj as [k Hk].
    destruct (member_object c k j Hk) as (m' & a' & E & Io & _).
    assert (m' = m) as ->.
    { assert (H0 : nth_error refs 0 = Some (o, p)) by (destruct refs; auto).
      destruct (member_object c 0 o (Hn _ _ H0)) as (m2 & a2 & E2 & Io2 & _).
      rewrite E2 in Eo. injection Eo as -> ->. eapply X_module; eauto. }
    rewrite E. eauto. }
  assert (Io' : In (object_of v o') (map (object_of v) (members c))).
  { apply in_map. rewrite <- Em. apply (in_map fst _ _ Ho'). }
  destruct (Mod _ Io') as (i' & a' & E' & Ib').
  pose proof (X_plain _ Ib') as P'. rewrite E' in P'.
  destruct P' as ((ps & Eps & Pps) & Na & _ & _ & Ic & Sm).
  split; [apply stored_text; auto|]. split; [apply stored_text, identifier_storable; auto|]. split; [|split; [|split]].
  - intros x Hx. destruct (Mod x Hx) as (i2 & a2 & -> & Ix). pose proof (X_plain _ Ix) as ((ps2 & Eps2 & Pps2) & Na2 & _).
    rewrite Eps in Eps2. injection Eps2 as <-.
    assert (Hh : map fst (columns a') = map fst (columns a2)).
    { apply columns_header; auto. eapply Permutation_trans; [exact Pps|apply Permutation_sym; exact Pps2]. }
    destruct (header_good a' _ (stored_sheet {| title := c; grid := [text "Module"; text "Class"] :: [text m; text c]
                :: header_row (dict_of (object_of v o')) :: rs |}) eq_refl) as [n En].
    + rewrite E'. reflexivity.
    + pose proof (identifiers _ Ib') as K. rewrite E' in K. exact K.
    + exists n. simpl dict_of. rewrite <- Hh. exact En.
  - intros x Hx. destruct (Mod x Hx) as (i2 & a2 & -> & _). eauto.
  - unfold height. simpl. rewrite !map_length. rewrite <- Em, map_length. f_equal. f_equal. f_equal. symmetry. eapply forall2_length; eauto.
  - intros n x Hx. rewrite nth_error_map in Hx. destruct (nth_error (members c) n) as [j|] eqn:Hj; [|discriminate].
    injection Hx as <-. rewrite <- Em, nth_error_map in Hj. destruct (nth_error refs n) as [[j' q]|] eqn:Hq; [|discriminate].
    injection Hj as ->. destruct (forall2_nth _ _ _ F n _ Hq) as (r & Hr & nm & cells & -> & G & Fc).
    change (4 + n) with (S (3 + n)). eapply row_good; [|exact G|exact Fc].
    unfold stored_sheet. cbn [grid]. rewrite nth_error_map.
    etransitivity; [|exact (f_equal (option_map (map stored)) Hr)]. reflexivity.
Qed.

(** the sheet of each class *)
Definition sheet_of (c : string) (s : sheet) : Prop :=
  title s = c /\ exists m, sheet_for s m c (map (object_of v) (members c)).

Lemma written_ok : exists main others, written same pystr round6 v = Ok (main :: others)
  /\ title main = ("Object " ++ C)%string /\ sheet_for main M C [v] /\ Forall2 sheet_of (classes_of v) others.
Proof.
  destruct main_ok as (s & E & T & G).
  destruct (paths_spec same same_refl same_sym same_trans v) as (Ec & _ & _).
  destruct (exists_forall2 (fun cr s => class_sheet same pystr round6 v rows cr = Ok s /\ title s = fst cr
     /\ exists m, sheet_for (stored_sheet s) m (fst cr) (map (object_of v) (members (fst cr)))) (paths_of same v)) as [ss F].
  { intros [c refs] H. destruct (class_sheet_ok c refs H) as (s' & m & E' & T' & G'). exists s'. split; auto. split; auto. exists m. auto. }
  exists (stored_sheet s), (map stored_sheet ss). split; [|split; [|split]]; auto.
  - unfold written. rewrite E. cbn [bind]. rewrite (mapM_ok (class_sheet same pystr round6 v rows) (paths_of same v) ss).
    + reflexivity.
    + eapply forall2_impl; [exact F|]. intros x y _ [H _]. exact H.
  - rewrite <- Ec. clear - F. induction F as [|cr s l ss (_ & T & m & G) F IH]; simpl; constructor; auto.
    split; auto. exists m. auto.
Qed.

(** ** Reading *)

Definition extracted (s : sheet) (m c : string) (n : nat) : extract :=
  {| module_name := m; class_name := c; header := map content (row_from s 3 2);
     rows_of := map (fun r => row_from s r 2) (seq 4 n) |}.

Lemma extract_sheet_ok s m c o objs : sheet_for s m c (o :: objs) -> In o (objects v) ->
  extract_sheet pystr classes s = Ok (title s, extracted s m c (List.length (o :: objs))).
Proof.
  intros (E1 & E2 & H & O & L & _) Io. unfold extract_sheet. rewrite E1, E2, L.
  destruct (O o (or_introl eq_refl)) as (i & a & ->).
  change (text_of pystr (CText m)) with m. change (text_of pystr (CText c)) with c.
  rewrite (extract_ok pystr literal round6 classes m c i a _ _ (X_plain _ Io)) by (apply (H _ (or_introl eq_refl))).
  cbn [bind]. unfold extracted. reflexivity.
Qed.

Section Workbook.
Variables (main : sheet) (others : list sheet).
Hypothesis Tm : title main = ("Object " ++ C)%string.
Hypothesis Gm : sheet_for main M C [v].
Hypothesis Go : Forall2 sheet_of (classes_of v) others.
Notation wb := (main :: others).

Definition good (inst : instances) (c : string) : Prop :=
  exists os, get c inst = Some os /\ map canon os = map (fun j => canon (object_of v j)) (members c).

Lemma class_identifier c : In c (classes_of v) -> identifier c.
Proof.
  intros H. unfold classes_of in H. apply BreakdownOrder.dedup_in in H. apply in_map_iff in H.
  destruct H as ([[c' i] p] & E & H). simpl in E. subst c'.
  destruct (visited_object v c i p H) as (m & a & Io). apply X_plain in Io. apply Io.
Qed.

Lemma find_sheet c : In c (classes_of v) -> exists s, find (fun s => String.eqb (title s) c) wb = Some s /\ sheet_of c s.
Proof.
  intros Hc. cbn [find]. destruct (String.eqb_spec (title main) c) as [E|_].
  - exfalso. rewrite Tm in E. apply (identifier_title c C (class_identifier c Hc) E).
  - destruct (find (fun s => String.eqb (title s) c) others) as [s|] eqn:F.
    + exists s. split; auto. apply find_some in F. destruct F as [Hs T]. apply String.eqb_eq in T.
      destruct (forall2_in_r _ _ _ Go s Hs) as (c' & _ & S). destruct S as [T' S']. assert (c' = c) by congruence. subst. split; auto.
    + exfalso. destruct (forall2_in_l _ _ _ Go c Hc) as (s & Hs & T & _). pose proof (find_none _ _ F s Hs) as N. simpl in N.
      rewrite T, String.eqb_refl in N. discriminate.
Qed.

Lemma location_ok c n : In c (classes_of v) -> get_location wb (c, n) = Ok (c, n).
Proof.
  intros Hc. unfold get_location. destruct (find_sheet c Hc) as (s & F & _). apply find_some in F. destruct F as [Hs T].
  cbn [fst]. assert (existsb (fun s => String.eqb (title s) c) wb = true) as ->; auto. apply existsb_exists. eauto.
Qed.

Lemma same_canon c j m i a : In j (members c) -> In (VObj m c i a) (objects v) -> same j i = true -> canon (object_of v j) = canon (VObj m c i a).
Proof.
  intros Hj Io S. apply In_nth_error in Hj. destruct Hj as [n Hn]. destruct (member_object c n j Hn) as (m' & a' & -> & Ij & _).
  apply X_same; auto.
Qed.

Lemma attribute_object x k z : In x (objects v) -> In (k, z) (dict_of x) -> forall y, In y (objects z) -> In y (objects v).
Proof.
  intros Hx Hz y Hy.
  assert (T : forall u x, In x (objects u) -> forall k z, In (k, z) (dict_of x) -> forall y, In y (objects z) -> In y (objects u)).
  { clear. fix IH 1. intros u x Hx k z Hz y Hy. destruct u as [| | | | |l|l|l|d|m c i a]; simpl in Hx |- *; try tauto.
    - induction l as [|w l IHl]; simpl in *; [tauto|]. apply in_app_iff in Hx. apply in_app_iff.
      destruct Hx as [Hx|Hx]; [left; eapply IH; eauto|right; auto].
    - induction l as [|w l IHl]; simpl in *; [tauto|]. apply in_app_iff in Hx. apply in_app_iff.
      destruct Hx as [Hx|Hx]; [left; eapply IH; eauto|right; auto].
    - induction l as [|w l IHl]; simpl in *; [tauto|]. apply in_app_iff in Hx. apply in_app_iff.
      destruct Hx as [Hx|Hx]; [left; eapply IH; eauto|right; auto].
    - induction d as [|[k' w] l IHl]; simpl in *; [tauto|]. apply in_app_iff in Hx. apply in_app_iff.
      destruct Hx as [Hx|Hx]; [left; eapply (IH w); eauto|right; auto].
    - right. destruct Hx as [<-|Hx].
      + simpl in Hz. apply in_flat_map. exists (k, z). auto.
      + induction a as [|[k' w] l IHl]; simpl in *; [tauto|]. apply in_app_iff in Hx. apply in_app_iff.
        destruct Hx as [Hx|Hx]; [left; eapply (IH w); eauto|right; auto]. }
  eapply T; eauto.
Qed.

Lemma attribute_public x k z : In x (objects v) -> In (k, z) (dict_of x) -> public k = true /\ k <> ""%string.
Proof.
  intros Hx Hz. pose proof (X_plain x Hx) as P. destruct x; simpl in Hz; try tauto.
  destruct P as (_ & _ & _ & K & _). destruct (K k (in_map fst _ _ Hz)) as [[K1 _] K2]. rewrite public_iff. auto.
Qed.

Lemma alone_reads inst after x k z cl : reached x -> In (k, z) (dict_of x) -> alone after z -> holds (k, z) cl ->
  (forall c, In c after -> In c (classes_of v) /\ good inst c) -> reads (linked_value wb inst) (k, z) cl.
Proof.
  intros Rx Hz Al H G. destruct (attribute_public x k z (proj1 Rx) Hz) as [Pk Nk].
  destruct Al as [z K|m c i a j rest Ca Mj S Wd|c l Ca Nl F].
  - destruct (kept_reads (k, z) cl K H) as [Hl (r & R1 & R2)]. exists r. split; auto. unfold linked_value. rewrite Hl. exact R1.
  - destruct (object_cell x k m c i a Rx Hz Pk Nk) as (n & j' & q & _ & _ & _ & (o & Ho & So) & St & E).
    destruct H as (cl0 & E' & ->). cbn [snd] in E'. rewrite E in E'. injection E' as <-.
    destruct (G c Ca) as [Hc (os & Gos & Eos)].
    unfold stored. cbn [content link]. rewrite stored_text by auto.
    assert (Nw : forall w, In w ["Dict"; "List"; "Set"; "Tuple"]%string -> has_word w q = false).
    { intros w Hw. apply no_word; [intros ->; simpl in Hw; repeat destruct Hw as [Hw|Hw]; try discriminate; contradiction|]. eapply Wd; eauto. }
    unfold reads, linked_value. cbn [link]. rewrite location_ok by auto. cbn [bind fst]. rewrite Gos. cbn [of_option bind].
    unfold update_attribute_values. cbn [content]. rewrite (Nw "Dict"%string) by (simpl; auto).
    cbn [existsb]. rewrite !Nw by (simpl; auto). cbn [orb].
    rewrite Mj in Eos. destruct os as [|w os]; [discriminate|]. simpl in Eos. injection Eos as Ew _.
    exists w. split; [reflexivity|]. cbn [snd].
    assert (Io : In (VObj m c i a) (objects v)).
    { eapply attribute_object; [exact (proj1 Rx)|exact Hz|]. simpl. auto. }
    assert (Ec : canon w = canon (VObj m c i a)).
    { etransitivity; [exact Ew|]. apply same_canon; auto. rewrite Mj. simpl. auto. }
    destruct w; try discriminate. exact Ec.
  - destruct H as (cl0 & E' & ->). cbn [snd] in E'. rewrite (list_cell c l Nl F) in E'. injection E' as <-.
    destruct (G c Ca) as [Hc (os & Gos & Eos)]. destruct (list_words (List.length l)) as [W1 W2].
    assert (St : storable ("List of " ++ nat_str (List.length l) ++ " items")) by (split; [discriminate|intros s' Es; discriminate]).
    unfold stored. cbn [content link]. rewrite stored_text by exact St.
    unfold reads, linked_value, update_attribute_values. cbn [content link].
    rewrite location_ok by auto. cbn [bind fst]. rewrite Gos. cbn [of_option bind].
    cbn [append] in W1, W2. rewrite W1, W2. exists (VList os). split; [reflexivity|]. cbn [snd evaluated canon ExcelModel.evaluated]. f_equal. rewrite Eos.
    assert (Io : forall m i a, In (VObj m c i a) l -> In (VObj m c i a) (objects v)).
    { intros m i a Hl. eapply attribute_object; [exact (proj1 Rx)|exact Hz|]. simpl. apply in_flat_map. eexists. split; [exact Hl|]. simpl. auto. }
    symmetry. apply (forall2_map _ _ _ _ _ (forall2_both _ _ _ F)).
    intros x' j (Hx & Hj & m & i & a & -> & S). symmetry. apply same_canon; auto.
Qed.

Lemma among_reads x k z cl : reached x -> In (k, z) (dict_of x) -> among z -> holds (k, z) cl ->
  reads (process_sub_objects pystr literal classes wb) (k, z) cl.
Proof.
  intros Rx Hz Am H. destruct (attribute_public x k z (proj1 Rx) Hz) as [Pk Nk].
  destruct Am as [z K|m c i a K].
  - destruct (kept_reads (k, z) cl K H) as [Hl (r & R1 & R2)]. exists r. split; auto. unfold process_sub_objects. rewrite Hl. exact R1.
  - destruct (object_cell x k m c i a Rx Hz Pk Nk) as (n & j & q & Hn & S & Hc & _ & St & E).
    destruct H as (cl0 & E' & ->). cbn [snd] in E'. rewrite E in E'. injection E' as <-.
    assert (Io : In (VObj m c i a) (objects v)).
    { eapply attribute_object; [exact (proj1 Rx)|exact Hz|]. simpl. auto. }
    destruct (member_object c n j Hn) as (m' & a' & Ej & Ij & _).
    destruct (find_sheet c Hc) as (s & Fs & T & m'' & E1 & E2 & Hh & Ho & _ & Hr).
    assert (Hj : nth_error (map (object_of v) (members c)) n = Some (VObj m' c j a')) by (rewrite nth_error_map, Hn; simpl; congruence).
    destruct (Ho _ (nth_error_In _ _ Hj)) as (? & ? & E3). injection E3 as <- <- <-.
    pose proof (Hh _ (nth_error_In _ _ Hj)) as Gh. pose proof (Hr n _ Hj) as Gr. simpl dict_of in Gh, Gr.
    unfold reads, process_sub_objects, stored. cbn [link content]. rewrite location_ok by auto. cbn [bind fst snd].
    rewrite Fs. cbn [of_option bind]. rewrite E1, E2.
    change (text_of pystr (CText m')) with m'. change (text_of pystr (CText c)) with c.
    rewrite (extract_ok pystr literal round6 classes m' c j a' _ _ (X_plain _ Ij) Gh). cbn [bind].
    destruct (row_creates plain_value m' c j a' _ [] _ (X_plain _ Ij) Gh Gr) as (values & w & V & W1 & W2); auto.
    + intros [k' z'] cl' Hk' _ Hh'. apply columns_in in Hk'. destruct Hk' as (Hk' & _ & Nn).
      apply kept_reads; auto. simpl. eapply (K (VObj m' c j a')); eauto.
    + assert (Ev : values = map (fun c => scalar_value (content c)) (row_from s (4 + n) 2)).
      { clear - V. revert values V. generalize (row_from s (4 + n) 2) as row. induction row as [|y row IH]; intros values V; simpl in V.
        - injection V as <-. reflexivity.
        - destruct (mapM plain_value row) as [ys|] eqn:Y; [|discriminate]. simpl in V. injection V as <-. simpl. f_equal. apply IH. auto. }
      rewrite Nat.add_comm, <- Ev. exists w. split; auto.
      assert (Ec : canon w = canon (VObj m c i a)).
      { etransitivity; [exact W2|]. apply (X_same (VObj m' c j a') (VObj m c i a)); auto. }
      destruct w; try discriminate. exact Ec.
Qed.

Lemma plain_values row : mapM plain_value row = Ok (map (fun c => scalar_value (content c)) row).
Proof. induction row as [|x row IH]; simpl; auto. rewrite IH. auto. Qed.

Lemma rows_create f s m c objs : sheet_for s m c objs -> (forall o, In o objs -> In o (objects v)) ->
  (forall s, f (stored (text s)) = plain_value (stored (text s))) -> f blank = plain_value blank ->
  (forall o kx cl row, In o objs -> In kx (columns (dict_of o)) -> In row (rows_of (extracted s m c (List.length objs))) -> In cl row ->
      holds kx cl -> reads f kx cl) ->
  exists os, mapM (fun row => let* values := mapM f row in
                              create_object literal classes (extracted s m c (List.length objs)) values)
                  (rows_of (extracted s m c (List.length objs))) = Ok os
    /\ map canon os = map canon objs.
Proof.
  intros (_ & _ & Hh & Ho & _ & Hr) Io Fn Fb R.
  set (rws := rows_of (extracted s m c (List.length objs))) in *.
  assert (F : Forall2 (fun row o => row_of_object (dict_of o) row) rws objs).
  { unfold rws, extracted. cbn [rows_of]. apply seq_nth. intros n o Hn. apply (Hr n o Hn). }
  assert (F' := forall2_both _ _ _ F). clear F.
  assert (Gen : forall rws0 objs0, Forall2 (fun row o => In row rws /\ In o objs /\ row_of_object (dict_of o) row) rws0 objs0 ->
    exists os, mapM (fun row => let* values := mapM f row in
                              create_object literal classes (extracted s m c (List.length objs)) values) rws0 = Ok os
    /\ map canon os = map canon objs0); [|exact (Gen _ _ F')].
  clear F'. intros rws0 objs0 F. induction F as [|row o rws0 objs0 (Hrow & Hobj & Ro) F IH]; [exists []; auto|].
  destruct IH as (os & E & Ec). destruct (Ho o Hobj) as (i & a & ->). simpl in Ro.
  destruct (row_creates f m c i a _ (rows_of (extracted s m c (List.length objs))) row (X_plain _ (Io _ Hobj)) (Hh _ Hobj) Ro Fn Fb)
    as (values & w & V & W1 & W2).
  { intros kx cl Hk Hc. apply (R _ kx cl row Hobj); auto. }
  exists (w :: os). cbn [mapM]. rewrite V. cbn [bind].
  change (create_object literal classes (extracted s m c (List.length objs)) values = Ok w) in W1. rewrite W1. cbn [bind].
  rewrite E. split; auto. simpl. f_equal; auto.
Qed.

Lemma single_row x (l : list x) : List.length l <= 1 -> l = [] \/ exists y, l = [y].
Proof. destruct l as [|y [|z l]]; simpl; intros H; auto; [right; eauto|lia]. Qed.

Lemma linked_plain inst cl : link cl = None -> linked_value wb inst cl = plain_value cl.
Proof. intros E. unfold linked_value. rewrite E. auto. Qed.
Lemma sub_plain cl : link cl = None -> process_sub_objects pystr literal classes wb cl = plain_value cl.
Proof. intros E. unfold process_sub_objects. rewrite E. auto. Qed.

Lemma alone_kept_or_linked after x k z cl : reached x -> In (k, z) (dict_of x) -> alone after z -> holds (k, z) cl -> link cl = None -> kept z.
Proof.
  intros Rx Hz Al (cl0 & E & ->) L. destruct (attribute_public x k z (proj1 Rx) Hz) as [Pk Nk]. cbn [snd] in E.
  destruct Al as [z K|m c i a j rest _ _ _ _|c l _ Nl F]; auto; exfalso.
  - destruct (object_cell x k m c i a Rx Hz Pk Nk) as (n & j' & q & _ & _ & _ & _ & _ & E'). rewrite E' in E. injection E as <-. discriminate.
  - rewrite (list_cell c l Nl F) in E. injection E as <-. discriminate.
Qed.
Lemma among_kept_or_linked x k z cl : reached x -> In (k, z) (dict_of x) -> among z -> holds (k, z) cl -> link cl = None -> kept z.
Proof.
  intros Rx Hz Al (cl0 & E & ->) L. destruct (attribute_public x k z (proj1 Rx) Hz) as [Pk Nk]. cbn [snd] in E.
  destruct Al as [z K|m c i a _]; auto; exfalso.
  destruct (object_cell x k m c i a Rx Hz Pk Nk) as (n & j' & q & _ & _ & _ & _ & _ & E'). rewrite E' in E. injection E as <-. discriminate.
Qed.

Lemma process_sheet_ok before c after s m inst :
  classes_of v = before ++ c :: after -> sheet_for s m c (map (object_of v) (members c)) ->
  (forall c', In c' after -> good inst c') ->
  exists inst', process_sheet pystr literal classes wb inst (c, extracted s m c (List.length (members c))) = Ok inst'
    /\ good inst' c /\ forall c', c' <> c -> get c' inst' = get c' inst.
Proof.
  intros Ec Sh G.
  set (objs := map (object_of v) (members c)) in *.
  assert (L : List.length (members c) = List.length objs) by (unfold objs; rewrite map_length; auto). rewrite L.
  assert (Ho : forall o, In o objs -> reached o /\ exists j, In j (members c) /\ o = object_of v j /\ id_of o = j /\ class_of o = c).
  { intros o H. apply in_map_iff in H. destruct H as (j & <- & Hj). pose proof Hj as Hj'. apply In_nth_error in Hj'. destruct Hj' as [n Hn].
    split; [eapply member_reached; eauto|]. exists j. split; auto. split; auto.
    destruct (member_object c n j Hn) as (m' & a' & -> & _). auto. }
  assert (Hat : forall o, In o objs -> match members c with [_] => attributes_are (alone after) o | _ => attributes_are among o end).
  { intros o H. destruct (Ho o H) as ([Io _] & j & Hj & _ & Ej & Ecl). destruct X as (_ & _ & _ & _ & _ & Xc).
    apply (Xc before c after Ec o Io Ecl). rewrite Ej. auto. }
  assert (Ia : forall c', In c' after -> In c' (classes_of v) /\ good inst c').
  { intros c' H. split; auto. rewrite Ec, in_app_iff. simpl. auto. }
  assert (Done : forall os, map canon os = map canon objs -> good (put c os inst) c /\ forall c', c' <> c -> get c' (put c os inst) = get c' inst).
  { intros os E. split.
    - exists os. rewrite get_put, String.eqb_refl. split; auto. rewrite E. unfold objs. rewrite map_map. auto.
    - intros c' N. rewrite get_put. destruct (String.eqb_spec c c'); [congruence|auto]. }
  set (e := extracted s m c (List.length objs)).
  unfold process_sheet. destruct (existsb (existsb has_link) (rows_of e)) eqn:Lk.
  - assert (Le : List.length (rows_of e) = List.length objs) by (unfold e, extracted; cbn [rows_of]; rewrite map_length, seq_length; auto).
    rewrite Le. destruct (1 <? List.length objs) eqn:Lt.
    + assert (Am : forall o, In o objs -> attributes_are among o).
      { intros o H. specialize (Hat o H). apply Nat.ltb_lt in Lt. rewrite <- L in Lt. destruct (members c) as [|j1 [|j2 js]]; auto; simpl in Lt; lia. }
      destruct (rows_create (process_sub_objects pystr literal classes wb) s m c objs Sh) as (os & E & Eo).
      { intros o H. apply Ho. auto. } { intros t. apply sub_plain. auto. } { apply sub_plain. auto. }
      { intros o [k z] cl row H Hk _ _ Hh. apply columns_in in Hk. destruct Hk as (Hk & _ & Nk).
        exact (among_reads o k z cl (proj1 (Ho o H)) Hk (Am o H k z Hk Nk) Hh). }
      unfold process_multiple_rows. fold e in E. rewrite E. cbn [bind]. eexists. split; [reflexivity|]. apply Done. auto.
    + apply Nat.ltb_ge in Lt. destruct (single_row _ _ Lt) as [En|[o En]].
      { exfalso. unfold e, extracted in Lk. cbn [rows_of] in Lk. rewrite En in Lk. discriminate. }
      assert (Al : attributes_are (alone after) o).
      { specialize (Hat o). rewrite En in Hat. specialize (Hat (or_introl eq_refl)). rewrite En in L. destruct (members c) as [|j1 [|j2 js]]; try discriminate. auto. }
      destruct (rows_create (linked_value wb inst) s m c objs Sh) as (os & E & Eo).
      { intros o' H. apply Ho. auto. } { intros t. apply linked_plain. auto. } { apply linked_plain. auto. }
      { intros o' [k z] cl row H Hk _ _ Hh. apply columns_in in Hk. destruct Hk as (Hk & _ & Nk).
        rewrite En in H. destruct H as [<-|[]].
        refine (alone_reads inst after o k z cl (proj1 (Ho o _)) Hk (Al k z Hk Nk) Hh Ia). rewrite En. simpl; auto. }
      unfold process_single_row. fold e in E. rewrite En in Le. destruct (rows_of e) as [|row [|]]; try discriminate.
      cbn [hd_error of_option bind]. cbn [mapM] in E. destruct (mapM (linked_value wb inst) row) as [values|]; [|discriminate]. cbn [bind] in E |- *.
      destruct (create_object literal classes e values) as [w|]; [|discriminate]. cbn [bind] in E |- *. injection E as <-.
      eexists. split; [reflexivity|]. apply Done. auto.
  - assert (Nl : forall row cl, In row (rows_of e) -> In cl row -> link cl = None).
    { intros row cl Hr Hc. destruct (link cl) eqn:El; auto. exfalso.
      assert (existsb (existsb has_link) (rows_of e) = true); [|congruence]. apply existsb_exists. exists row. split; auto.
      apply existsb_exists. exists cl. split; auto. unfold has_link. rewrite El. auto. }
    destruct (rows_create plain_value s m c objs Sh) as (os & E & Eo); auto.
    { intros o H. apply Ho. auto. }
    { intros o [k z] cl row H Hk Hr Hc Hh. apply columns_in in Hk. destruct Hk as (Hk & _ & Nk).
      apply kept_reads; auto. cbn [snd]. specialize (Hat o H). specialize (Nl row cl Hr Hc). pose proof (proj1 (Ho o H)) as Ro.
      destruct (members c) as [|j1 [|j2 js]].
      - exact (among_kept_or_linked o k z cl Ro Hk (Hat k z Hk Nk) Hh Nl).
      - exact (alone_kept_or_linked after o k z cl Ro Hk (Hat k z Hk Nk) Hh Nl).
      - exact (among_kept_or_linked o k z cl Ro Hk (Hat k z Hk Nk) Hh Nl). }
    unfold process_simple_sheet. fold e in E.
    assert (E' : mapM (fun row => create_object literal classes e (map (fun c => scalar_value (content c)) row)) (rows_of e) = Ok os).
    { rewrite <- E. apply mapM_ext. intros row _. rewrite plain_values. reflexivity. }
    rewrite E'. cbn [bind]. eexists. split; [reflexivity|]. apply Done. auto.
Qed.

Lemma sheets_read : forall after before ss, classes_of v = before ++ after -> Forall2 sheet_of after ss ->
  exists es inst, mapM (extract_sheet pystr classes) ss = Ok es
    /\ foldM (process_sheet pystr literal classes wb) (rev es) [] = Ok inst
    /\ (forall c, In c after -> good inst c).
Proof.
  induction after as [|c after IH]; intros before ss Ec F; inversion F as [|? s ? ss' [T (m & Sh)] F']; subst.
  - exists [], []. split; auto. split; auto. intros c [].
  - destruct (IH (before ++ [title s]) ss') as (es & inst & E & Fo & G); [rewrite <- app_assoc; auto|auto|].
    set (c := title s) in *.
    assert (Hm : exists o objs, map (object_of v) (members c) = o :: objs /\ In o (objects v)).
    { destruct (paths_of_class same same_refl same_sym same_trans v c) as [refs Hr]; [rewrite Ec, in_app_iff; simpl; auto|].
      destruct (paths_spec same same_refl same_sym same_trans v) as (_ & _ & Ps). destruct (Ps _ _ Hr) as (Em & Ne & _).
      destruct refs as [|[j p] refs]; [congruence|]. simpl in Em. rewrite <- Em. simpl. eexists. eexists. split; [reflexivity|].
      assert (Hn : nth_error (members c) 0 = Some j) by (rewrite <- Em; auto).
      destruct (member_object c 0 j Hn) as (m' & a & -> & Io & _). auto. }
    destruct Hm as (o & objs & Em & Io). pose proof Sh as Sh'. rewrite Em in Sh'.
    pose proof (extract_sheet_ok s m c o objs Sh' Io) as Ex. rewrite <- Em, map_length in Ex.
    destruct (process_sheet_ok before c after s m inst Ec Sh G) as (inst' & P & Gc & Go').
    eexists. exists inst'. split; [|split].
    + cbn [mapM]. rewrite Ex. cbn [bind]. rewrite E. reflexivity.
    + cbn [rev]. rewrite foldM_app, Fo. cbn [bind foldM]. fold c. rewrite P. reflexivity.
    + intros c' [<-|H]; auto. destruct (String.eqb_spec c' c) as [->|N]; auto.
      destruct (G c' H) as (os & G1 & G2). exists os. split; auto. rewrite Go'; auto.
Qed.

Lemma workbook_read : exists w, read_workbook pystr literal classes wb = Ok w /\ canon w = canon v.
Proof.
  destruct (sheets_read (classes_of v) [] others eq_refl Go) as (es & inst & E & Fo & G).
  assert (Iv : In v (objects v)) by (simpl; auto).
  unfold read_workbook. cbn [mapM]. rewrite (extract_sheet_ok main M C v [] Gm Iv). cbn [bind]. rewrite E. cbn [bind].
  rewrite Fo. cbn [bind].
  assert (Rv : reached v) by (split; auto).
  destruct (rows_create (linked_value wb inst) main M C [v] Gm) as (os & Eo & Eos).
  { intros o [<-|[]]. auto. } { intros t. apply linked_plain. auto. } { apply linked_plain. auto. }
  { intros o [k z] cl row [<-|[]] Hk _ _ Hh. apply columns_in in Hk. destruct Hk as (Hk & _ & Nk).
    eapply (alone_reads inst (classes_of v) v); eauto. destruct X as (_ & _ & _ & _ & Xa & _). apply (Xa k z Hk Nk). }
  unfold process_single_row. set (e := extracted main M C (List.length [v])) in *.
  assert (Le : List.length (rows_of e) = 1) by reflexivity.
  destruct (rows_of e) as [|row [|]]; try discriminate.
  cbn [hd_error of_option bind]. cbn [mapM] in Eo. destruct (mapM (linked_value wb inst) row) as [values|]; [|discriminate]. cbn [bind] in Eo |- *.
  destruct (create_object literal classes e values) as [w|]; [|discriminate]. cbn [bind] in Eo |- *. injection Eo as <-.
  rewrite get_put, String.eqb_refl. cbn [of_option bind hd_error]. exists w. split; auto. simpl in Eos. injection Eos as Eos. exact Eos.
Qed.
End Workbook.

Theorem exchange_ok : exists w, exchanged same pystr literal round6 classes v = Ok w /\ canon w = canon v.
Proof.
  destruct written_ok as (main & others & E & T & Gm & Go). unfold exchanged. rewrite E. cbn [bind].
  apply workbook_read; auto.
Qed.
End Exchange.

(** Proofs about the form of the run of a workflow. *)
From Coq Require Import List String Bool Arith DecimalString DecimalNat Permutation Lia.
From Verif Require Import Base RunFormModel RunFormSpec.
Import ListNotations.
Local Open Scope string_scope.
Local Open Scope list_scope.

Lemma string_of_nat_injective i j : NilZero.string_of_uint (Nat.to_uint i) = NilZero.string_of_uint (Nat.to_uint j) -> i = j.
Proof.
  intros E. apply (f_equal NilZero.uint_of_string) in E.
  assert (N : forall n, Nat.to_uint n <> Decimal.Nil).
  { intros n. rewrite <- (Unsigned.of_to n), Unsigned.to_of. unfold Decimal.unorm. destruct (Decimal.nzhead _); discriminate. }
  rewrite !NilZero.usu in E by auto. injection E as E. apply (f_equal Nat.of_uint) in E. rewrite !Unsigned.of_to in E. auto.
Qed.
Lemma mapM_forall2 {A B} (f : A -> res B) l r : mapM f l = Ok r <-> Forall2 (fun x y => f x = Ok y) l r.
Proof.
  split.
  - revert r. induction l as [|x l IH]; intros r E; cbn [mapM] in E; [injection E as <-; constructor|]. destruct (f x) as [y|e] eqn:Fx; cbn [bind] in E; [|discriminate]. destruct (mapM f l) as [ys|e]; cbn [bind] in E; [|discriminate]. injection E as <-. constructor; auto.
  - induction 1 as [|x y l r E F IH]; cbn [mapM]; [reflexivity|]. rewrite E. cbn [bind]. rewrite IH. reflexivity.
Qed.
Lemma memb_nat v l : memb Nat.eqb v l = true <-> In v l.
Proof.
  unfold memb. rewrite existsb_exists. split; [intros (x & I & E); apply Nat.eqb_eq in E; subst; auto|intros I; exists v; split; [auto|apply Nat.eqb_refl]].
Qed.
Lemma index_nat v l : In v l -> exists k, index_of Nat.eqb v l = Some k /\ nth_error l k = Some v.
Proof.
  induction l as [|m l IH]; intros I; [destruct I|]. cbn [index_of]. destruct (Nat.eqb v m) eqn:E.
  - apply Nat.eqb_eq in E. subst. exists 0. auto.
  - destruct I as [->|I]; [rewrite Nat.eqb_refl in E; discriminate|]. destruct (IH I) as (k & K & N). exists (S k). rewrite K. auto.
Qed.
Lemma index_none v l : ~ In v l -> index_of Nat.eqb v l = None.
Proof.
  induction l as [|m l IH]; intros I; cbn [index_of]; [reflexivity|]. destruct (Nat.eqb v m) eqn:E; [apply Nat.eqb_eq in E; subst; destruct I; left; auto|]. rewrite IH; [reflexivity|intros J; apply I; right; auto].
Qed.

Section Proofs.
Context {T X C P F R B : Type}.
Variable var : nat -> variable T X.
Variables inputs nonblock detached : list nat.
Variable upstream : nat -> nat.
Variable block_of : nat -> res B.
Variable block_name : B -> string.
Variable input_doc : B -> nat -> C.
Variable empty_doc : C.
Variable pretty : string -> string.
Variable get_schema : T -> attribute X C -> res P.
Variable to_dict : P -> res F.
Notation input_schema := (input_schema var inputs nonblock detached upstream block_of block_name input_doc empty_doc pretty).
Notation address := (address inputs upstream).
Notation input_annotations := (input_annotations var inputs upstream).
Notation schemas := (schemas get_schema).
Notation chunk := (chunk to_dict).
Notation build_step := (build_step var inputs nonblock detached upstream block_of block_name input_doc empty_doc pretty get_schema).
Notation write_step := (write_step pretty to_dict).
Notation property := (property var inputs nonblock detached block_of block_name input_doc empty_doc pretty get_schema to_dict).
Notation step_shown := (step_shown var inputs nonblock detached block_of block_name input_doc empty_doc pretty get_schema to_dict).
Notation method_schemas steps spare := (method_schemas var inputs nonblock detached steps spare upstream block_of block_name input_doc empty_doc pretty get_schema to_dict).

Definition one (v : nat) : res F := let* a := input_schema v in let* p := get_schema (v_type (var v)) a in to_dict p.
Hypothesis nodup : NoDup inputs.
Hypothesis usual : forall v, In v inputs -> upstream v = v /\ (In v nonblock \/ In v detached \/ exists b, block_of v = Ok b).

Lemma address_in v : In v inputs -> exists i, nth_error inputs i = Some v /\ address v = NilZero.string_of_uint (Nat.to_uint i).
Proof.
  intros I. destruct (usual v I) as [U _]. destruct (index_nat v inputs I) as (k & K & N). exists k. split; [exact N|]. unfold RunFormModel.address, input_index. rewrite U, K. reflexivity.
Qed.
Lemma address_inj v w : In v inputs -> In w inputs -> address v = address w -> v = w.
Proof.
  intros I J E. destruct (address_in v I) as (i & N & A), (address_in w J) as (j & M & A'). rewrite A, A' in E. apply string_of_nat_injective in E. subst. congruence.
Qed.
Lemma input_schema_key v a : input_schema v = Ok a -> a_key a = address v.
Proof.
  unfold RunFormModel.input_schema. destruct (negb (memb Nat.eqb v nonblock) && negb (memb Nat.eqb v detached)).
  - destruct (block_of v) as [b|e]; cbn [bind]; [|discriminate]. destruct (locked (var v)) as [l|e]; cbn [bind]; [|discriminate]. intros E. injection E as <-. reflexivity.
  - cbn [bind]. destruct (locked (var v)) as [l|e]; cbn [bind]; [|discriminate]. intros E. injection E as <-. reflexivity.
Qed.
Lemma input_schema_char v a : In v inputs -> (input_schema v = Ok a <-> exists i t c, nth_error inputs i = Some v /\
  titled var nonblock detached block_of block_name pretty v t /\ documented nonblock detached block_of input_doc empty_doc v c /\ (v_locked (var v) = true -> v_default (var v) <> None) /\
  a = Attribute X C (NilZero.string_of_uint (Nat.to_uint i)) (v_default (var v)) t (negb (v_locked (var v))) c).
Proof.
  intros I. destruct (address_in v I) as (i & N & A). destruct (usual v I) as [_ U].
  assert (L : (v_locked (var v) = true -> v_default (var v) <> None) -> locked (var v) = Ok (v_locked (var v))).
  { intros H. unfold locked. destruct (v_locked (var v)); [destruct (v_default (var v)); [reflexivity|exfalso; apply H; auto]|reflexivity]. }
  assert (L' : forall l, locked (var v) = Ok l -> l = v_locked (var v) /\ (v_locked (var v) = true -> v_default (var v) <> None)).
  { unfold locked. intros l E. destruct (v_locked (var v)); [destruct (v_default (var v)); [injection E as <-; split; [reflexivity|discriminate]|discriminate]|injection E as <-; split; [reflexivity|discriminate]]. }
  assert (S : exists t c, titled var nonblock detached block_of block_name pretty v t /\ documented nonblock detached block_of input_doc empty_doc v c /\
    input_schema v = let* l := locked (var v) in Ok (Attribute X C (address v) (v_default (var v)) t (negb l) c)).
  { unfold RunFormModel.input_schema. destruct (memb Nat.eqb v nonblock) eqn:Nb; [|destruct (memb Nat.eqb v detached) eqn:De]; cbn [negb andb bind fst snd].
    - apply memb_nat in Nb. destruct (String.eqb (v_label (var v)) "") eqn:E.
      + apply String.eqb_eq in E. eexists. eexists. split; [apply title_free; auto|]. split; [apply doc_free; auto|]. reflexivity.
      + apply String.eqb_neq in E. eexists. eexists. split; [apply title_label; auto|]. split; [apply doc_free; auto|]. reflexivity.
    - assert (Nb' : ~ In v nonblock) by (rewrite <- memb_nat; congruence). apply memb_nat in De. destruct (String.eqb (v_label (var v)) "") eqn:E.
      + apply String.eqb_eq in E. eexists. eexists. split; [apply title_detached; auto|]. split; [apply doc_free; auto|]. rewrite E. reflexivity.
      + apply String.eqb_neq in E. eexists. eexists. split; [apply title_label; auto|]. split; [apply doc_free; auto|]. reflexivity.
    - assert (Nb' : ~ In v nonblock) by (rewrite <- memb_nat; congruence). assert (De' : ~ In v detached) by (rewrite <- memb_nat; congruence). destruct U as [U|[U|[b U]]]; [contradiction|contradiction|]. rewrite U. cbn [bind fst snd]. destruct (String.eqb (v_label (var v)) "") eqn:E.
      + apply String.eqb_eq in E. eexists. eexists. split; [eapply title_block; eauto|]. split; [eapply doc_block; eauto|]. reflexivity.
      + apply String.eqb_neq in E. eexists. eexists. split; [apply title_label; auto|]. split; [eapply doc_block; eauto|]. reflexivity. }
  destruct S as (t & c & Ti & Do & ->). split.
  - intros E. destruct (locked (var v)) as [l|e] eqn:Lo; cbn [bind] in E; [|discriminate]. injection E as <-. destruct (L' l eq_refl) as [-> H]. exists i, t, c. rewrite A. auto.
  - intros (j & t' & c' & N' & Ti' & Do' & H & ->). rewrite (L H). cbn [bind]. assert (j = i). { apply (proj1 (NoDup_nth_error inputs) nodup); [apply nth_error_Some; congruence|congruence]. } subst j. rewrite A.
    assert (t' = t) by (destruct Ti; inversion Ti'; subst; auto; congruence || (exfalso; auto)). assert (c' = c) by (destruct Do as [b n d Eb|[n|n]]; inversion Do' as [b' n' d' Eb'|[n'|n']]; subst; auto; congruence || (exfalso; auto)). subst. reflexivity.
Qed.
Lemma one_property v f : In v inputs -> (one v = Ok f <-> property v f).
Proof.
  intros I. unfold one. split.
  - intros E. destruct (input_schema v) as [a|e] eqn:Ia; cbn [bind] in E; [|discriminate]. apply (input_schema_char v a I) in Ia. destruct Ia as (i & t & c & N & Ti & Do & H & ->). destruct (get_schema _ _) as [p|e] eqn:G in E; cbn [bind] in E; [|discriminate]. exists i, t, c, p. auto 10.
  - intros (i & t & c & p & N & Ti & Do & H & G & D). rewrite (proj2 (input_schema_char v _ I) (ex_intro _ i (ex_intro _ t (ex_intro _ c (conj N (conj Ti (conj Do (conj H eq_refl)))))))). cbn [bind]. rewrite G. exact D.
Qed.

(** Collections of attributes with distinct keys. *)
Definition made (v : nat) (a : attribute X C) : Prop := input_schema v = Ok a.
Lemma made_keys l la : Forall2 made l la -> map a_key la = map address l.
Proof. induction 1 as [|v a l la M F2 IH]; cbn; [reflexivity|]. rewrite IH, (input_schema_key v a M). reflexivity. Qed.
Lemma nodup_keys l : NoDup l -> (forall v, In v l -> In v inputs) -> NoDup (map address l).
Proof.
  induction 1 as [|v l N D IH]; intros H; cbn; constructor.
  - intros I. apply in_map_iff in I. destruct I as (w & E & I). apply N. rewrite (address_inj v w); [exact I|apply H; left; auto|apply H; right; auto|auto].
  - apply IH. intros; apply H; right; auto.
Qed.
Lemma schemas_keys ann la d : schemas ann la = Ok d -> map fst d = map a_key la.
Proof.
  revert d. induction la as [|a la IH]; intros d E; cbn [RunFormModel.schemas] in E; [injection E as <-; reflexivity|]. destruct (get (a_key a) ann) as [t|]; cbn [of_option bind] in E; [|discriminate]. destruct (get_schema t a) as [p|e]; cbn [bind] in E; [|discriminate]. destruct (schemas ann la) as [r|e]; cbn [bind] in E; [|discriminate]. injection E as <-. cbn. rewrite (IH r); auto.
Qed.
Lemma schema_of_none k (d : list (string * P)) : ~ In k (map fst d) -> schema_of k d = None.
Proof.
  induction d as [|[k' p] d IH]; intros N; cbn in *; [reflexivity|]. rewrite IH by tauto. destruct (String.eqb k k') eqn:E; [apply String.eqb_eq in E; subst; exfalso; auto|reflexivity].
Qed.
Lemma collection ann l la : Forall2 made l la -> NoDup (map address l) -> (forall v, In v l -> get (address v) ann = Some (v_type (var v))) ->
  (forall d r, schemas ann la = Ok d -> mapM (chunk d) la = Ok r -> Forall2 (fun v f => one v = Ok f) l r) /\
  (forall r, Forall2 (fun v f => one v = Ok f) l r -> exists d, schemas ann la = Ok d /\ mapM (chunk d) la = Ok r).
Proof.
  intros M. assert (Cons : forall (k : string) (p : P) (d : list (string * P)) (xs : list (attribute X C)), ~ In k (map a_key xs) -> mapM (chunk ((k, p) :: d)) xs = mapM (chunk d) xs).
  { intros k p d xs. induction xs as [|x xs IH]; intros N; cbn [mapM]; [reflexivity|]. rewrite IH by (intros I; apply N; right; auto). unfold RunFormModel.chunk at 1 3. cbn [schema_of]. destruct (schema_of (a_key x) d); [reflexivity|]. destruct (String.eqb (a_key x) k) eqn:E; [apply String.eqb_eq in E; exfalso; apply N; left; auto|reflexivity]. }
  induction M as [|v a l la Mv M IH]; intros ND G.
  - split; [intros d r E E'; injection E as <-; injection E' as <-; constructor|]. intros r H. inversion H. exists []. split; reflexivity.
  - cbn [map] in ND. inversion ND as [|x y Na NDl]; subst. destruct (IH NDl) as [IH1 IH2]; [intros w I; apply G; right; auto|]. clear IH. assert (Ka : a_key a = address v) by (apply input_schema_key; auto).
    assert (Na' : ~ In (a_key a) (map a_key la)) by (rewrite (made_keys l la M), Ka; exact Na).
    cbn [RunFormModel.schemas]. rewrite Ka, (G v (or_introl eq_refl)). cbn [of_option bind]. rewrite <- Ka. split.
    + intros d r E E'. destruct (get_schema (v_type (var v)) a) as [p|e] eqn:Gp; cbn [bind] in E; [|discriminate]. destruct (schemas ann la) as [d'|e] eqn:Sd; cbn [bind] in E; [|discriminate]. injection E as <-. cbn [mapM] in E'. rewrite Cons in E' by exact Na'.
      unfold RunFormModel.chunk at 1 in E'. cbn [schema_of] in E'. rewrite schema_of_none in E' by (rewrite (schemas_keys ann la d' Sd); exact Na'). rewrite String.eqb_refl in E'. cbn [of_option bind] in E'. destruct (to_dict p) as [f|e] eqn:Tp; cbn [bind] in E'; [|discriminate]. destruct (mapM (chunk d') la) as [r'|e] eqn:Mr; cbn [bind] in E'; [|discriminate]. injection E' as <-. constructor; [|eapply IH1; eauto]. unfold one. rewrite Mv. cbn [bind]. rewrite Gp. exact Tp.
    + intros r H. inversion H as [|v' f l' r' E H']; subst. unfold one in E. rewrite Mv in E. cbn [bind] in E. destruct (get_schema (v_type (var v)) a) as [p|e] eqn:Gp; cbn [bind] in *; [|discriminate]. destruct (IH2 r' H') as (d & Sd & Md). rewrite Sd. cbn [bind]. eexists. split; [reflexivity|]. cbn [mapM]. rewrite Cons by exact Na'. unfold RunFormModel.chunk at 1. cbn [schema_of]. rewrite schema_of_none by (rewrite (schemas_keys ann la d Sd); exact Na'). rewrite String.eqb_refl. cbn [of_option bind]. rewrite E. cbn [bind]. rewrite Md. reflexivity.
Qed.

Lemma get_annotation l v : NoDup (map address l) -> In v l -> get (address v) (input_annotations l) = Some (v_type (var v)).
Proof.
  unfold RunFormModel.input_annotations. induction l as [|w l IH]; intros ND I; [destruct I|]. cbn [map get] in *. inversion ND as [|x y N ND']; subst. assert (G : forall k, ~ In k (map address l) -> get k (map (fun v => (address v, v_type (var v))) l) = None).
  { clear. intros k. induction l as [|u l IH]; intros N; cbn [map get] in *; [reflexivity|]. rewrite IH by (intros J; apply N; right; auto). destruct (String.eqb k (address u)) eqn:E; [apply String.eqb_eq in E; exfalso; apply N; left; auto|reflexivity]. }
  destruct I as [->|I].
  - rewrite (G _ N), String.eqb_refl. reflexivity.
  - rewrite (IH ND' I). reflexivity.
Qed.
Lemma get_filter k k' (d : list (string * T)) : get k (filter (fun x => negb (String.eqb k' (fst x))) d) = if String.eqb k k' then None else get k d.
Proof.
  induction d as [|[j t] d IH]; cbn [filter get fst]; [destruct (String.eqb k k'); reflexivity|]. destruct (String.eqb k' j) eqn:E; cbn [negb get].
  - rewrite IH. apply String.eqb_eq in E. subst j. destruct (String.eqb k k'); [reflexivity|]. destruct (get k d); reflexivity.
  - rewrite IH. destruct (String.eqb k k') eqn:E'; [|reflexivity]. apply String.eqb_eq in E'. subst. rewrite E. reflexivity.
Qed.
Lemma pop_all_ok l : forall la ann, Forall2 made l la -> NoDup (map address l) -> (forall v, In v l -> get (address v) ann = Some (v_type (var v))) ->
  exists r, pop_all la ann = Ok r /\ (forall v, In v l -> get (address v) (fst r) = Some (v_type (var v))) /\
    (forall k, ~ In k (map address l) -> get k (snd r) = get k ann) /\ (forall k, ~ In k (map address l) -> get k (fst r) = None).
Proof.
  induction l as [|v l IH]; intros la ann M ND G; inversion M as [|v' a l' la' Mv M']; subst; cbn [pop_all].
  - exists ([], ann). repeat split. intros v [].
  - cbn [map] in ND. inversion ND as [|x y N ND']; subst. unfold pop. rewrite (input_schema_key v a Mv), (G v (or_introl eq_refl)). cbn [of_option bind fst snd].
    destruct (IH la' (filter (fun x => negb (String.eqb (address v) (fst x))) ann) M' ND') as (r & E & G1 & G2 & G3).
    { intros w I. rewrite get_filter. destruct (String.eqb (address w) (address v)) eqn:Ew; [apply String.eqb_eq in Ew; exfalso; apply N; rewrite <- Ew; apply in_map; auto|]. apply G. right. auto. }
    rewrite E. cbn [bind]. eexists. split; [reflexivity|]. cbn [fst snd get]. repeat split.
    + intros w [<-|I]; [rewrite (G3 _ N), String.eqb_refl; reflexivity|rewrite (G1 w I); reflexivity].
    + intros k Nk. cbn [map] in Nk. rewrite G2 by (intros J; apply Nk; right; auto). rewrite get_filter. destruct (String.eqb k (address v)) eqn:Ek; [apply String.eqb_eq in Ek; exfalso; apply Nk; left; auto|reflexivity].
    + intros k Nk. cbn [map] in Nk. rewrite G3 by (intros J; apply Nk; right; auto). destruct (String.eqb k (address v)) eqn:Ek; [apply String.eqb_eq in Ek; exfalso; apply Nk; left; auto|reflexivity].
Qed.

Lemma split_made (m : nat -> bool) l al : mapM (fun v => let* a := input_schema v in Ok (m v, a)) l = Ok al ->
  Forall2 made (filter (fun v => negb (m v)) l) (map snd (filter (fun x => negb (fst x)) al)) /\ Forall2 made (filter m l) (map snd (filter fst al)).
Proof.
  revert al. induction l as [|v l IH]; intros al E; cbn [mapM] in E; [injection E as <-; split; constructor|]. destruct (input_schema v) as [a|e] eqn:Ia; cbn [bind] in E; [|discriminate]. destruct (mapM _ l) as [r|e]; cbn [bind] in E; [|discriminate]. injection E as <-. destruct (IH r eq_refl) as [H1 H2]. cbn [filter fst]. destruct (m v); cbn [negb map snd]; split; auto; constructor; auto.
Qed.
Lemma made_all (m : nat -> bool) l : (forall v, In v l -> exists a, input_schema v = Ok a) -> exists al, mapM (fun v => let* a := input_schema v in Ok (m v, a)) l = Ok al.
Proof.
  induction l as [|v l IH]; intros H; [exists []; reflexivity|]. destruct (H v (or_introl eq_refl)) as (a & E). destruct IH as (al & Al); [intros; apply H; right; auto|]. cbn [mapM]. rewrite E. cbn [bind]. rewrite Al. cbn [bind]. eauto.
Qed.
Lemma one_made v f : one v = Ok f -> exists a, input_schema v = Ok a.
Proof. unfold one. destruct (input_schema v) as [a|e]; [eauto|discriminate]. Qed.
Lemma forall2_one l r v : Forall2 (fun v f => one v = Ok f) l r -> In v l -> exists f, one v = Ok f.
Proof. induction 1 as [|w f l r E H IH]; intros I; [destruct I|]. destruct I as [<-|I]; eauto. Qed.

(** A step, before it is known to be made of properties. *)
Definition step_one (s : step R) (f : step_form F R) : Prop :=
  f_label f = s_label s /\ f_rest f = s_rest s /\
  Forall2 (fun v f => one v = Ok f) (filter (fun v => negb (in_group s v)) (s_inputs s)) (f_properties f) /\
  match f_group f with
  | None => filter (in_group s) (s_inputs s) = []
  | Some g => filter (in_group s) (s_inputs s) <> [] /\ Forall2 (fun v f => one v = Ok f) (filter (in_group s) (s_inputs s)) (g_properties g) /\
      g_key g = s_group_id s /\ g_title g = group_name pretty s
  end.
Definition step_form_of (s : step R) : res (step_form F R) := let* b := build_step s in write_step s b.
Lemma step_iff s f : NoDup (s_inputs s) -> (forall v, In v (s_inputs s) -> In v inputs) -> (step_form_of s = Ok f <-> step_one s f).
Proof.
  intros ND Sub. set (l := s_inputs s) in *. set (m := in_group s).
  assert (NDl : NoDup (map address l)) by (apply nodup_keys; auto).
  assert (ND1 : NoDup (map address (filter (fun v => negb (m v)) l))) by (apply nodup_keys; [apply NoDup_filter; auto|intros v I; apply filter_In in I; apply Sub; tauto]).
  assert (ND2 : NoDup (map address (filter m l))) by (apply nodup_keys; [apply NoDup_filter; auto|intros v I; apply filter_In in I; apply Sub; tauto]).
  assert (G : forall v, In v l -> get (address v) (input_annotations l) = Some (v_type (var v))) by (intros v I; apply get_annotation; auto).
  assert (Dis : forall v, In v (filter (fun v => negb (m v)) l) -> ~ In (address v) (map address (filter m l))).
  { intros v I J. apply in_map_iff in J. destruct J as (w & E & J). apply filter_In in I, J. destruct I as [I Nm], J as [J Mw]. apply address_inj in E; [|apply Sub; auto|apply Sub; auto]. subst w. rewrite Mw in Nm. discriminate. }
  unfold step_form_of, RunFormModel.build_step. fold l. split.
  - intros E. destruct (mapM (fun v => let* a := input_schema v in Ok (memb Nat.eqb v (s_group s), a)) l) as [al|e] eqn:Al; cbn [bind] in E; [|discriminate].
    destruct (split_made m l al Al) as [M1 M2].
    destruct (map snd (filter fst al)) as [|g1 gs] eqn:Gr.
    + destruct (schemas (input_annotations l) (map snd (filter (fun x => negb (fst x)) al))) as [d|e] eqn:Sd; cbn [bind] in E; [|discriminate]. unfold RunFormModel.write_step in E. destruct (mapM (chunk d) (map snd (filter (fun x => negb (fst x)) al))) as [r|e] eqn:Md; cbn [bind] in E; [|discriminate]. injection E as <-. repeat split; cbn [f_properties f_group].
      * destruct (collection (input_annotations l) _ _ M1 ND1) as [Co _]; [intros v I; apply filter_In in I; apply G; tauto|]. eapply Co; eauto.
      * inversion M2. auto.
    + destruct (pop_all_ok (filter m l) (g1 :: gs) (input_annotations l) M2 ND2) as (po & Ep & G1 & G2 & G3); [intros v I; apply filter_In in I; apply G; tauto|]. rewrite Ep in E. cbn [bind] in E. destruct (schemas (fst po) (g1 :: gs)) as [gd|e] eqn:Sg; cbn [bind] in E; [|discriminate]. destruct (schemas (snd po) (map snd (filter (fun x => negb (fst x)) al))) as [d|e] eqn:Sd; cbn [bind] in E; [|discriminate].
      unfold RunFormModel.write_step in E. destruct (mapM (chunk d) (map snd (filter (fun x => negb (fst x)) al))) as [r|e] eqn:Md; cbn [bind] in E; [|discriminate]. destruct (mapM (chunk gd) (g1 :: gs)) as [gr|e] eqn:Mg; cbn [bind] in E; [|discriminate]. injection E as <-. repeat split; cbn [f_properties f_group g_properties].
      * destruct (collection (snd po) _ _ M1 ND1) as [Co _]; [intros v I; rewrite G2 by auto; apply filter_In in I; apply G; tauto|]. eapply Co; eauto.
      * fold l m. intros N. rewrite N in M2. inversion M2.
      * destruct (collection (fst po) _ _ M2 ND2 G1) as [Co _]. eapply Co; eauto.
  - intros (El & Er & H1 & H2). destruct f as [fl fp fg fr]. cbn [f_label f_rest f_properties f_group] in *. subst fl fr. fold l m in H1, H2.
    assert (Ex : forall v, In v l -> exists f, one v = Ok f).
    { intros v I. destruct (m v) eqn:Mv.
      - destruct fg as [g|]; [destruct H2 as (_ & H2 & _); eapply forall2_one; [exact H2|apply filter_In; auto]|]. assert (Iv : In v (filter m l)) by (apply filter_In; auto). rewrite H2 in Iv. destruct Iv.
      - eapply forall2_one; [exact H1|apply filter_In; rewrite Mv; auto]. }
    destruct (made_all (fun v => memb Nat.eqb v (s_group s)) l) as (al & Al); [intros v I; destruct (Ex v I) as (f & E); eapply one_made; eauto|]. rewrite Al. cbn [bind]. destruct (split_made m l al Al) as [M1 M2].
    destruct fg as [g|].
    + destruct H2 as (NE & H2 & Kg & Tg). destruct g as [gk gt gp]. cbn [g_properties g_key g_title] in *. subst gk gt. destruct (map snd (filter fst al)) as [|g1 gs] eqn:Gr; [inversion M2; congruence|].
      destruct (pop_all_ok (filter m l) (g1 :: gs) (input_annotations l) M2 ND2) as (po & Ep & G1 & G2 & G3); [intros v I; apply filter_In in I; apply G; tauto|]. rewrite Ep. cbn [bind].
      destruct (collection (fst po) _ _ M2 ND2 G1) as [_ Co]. destruct (Co gp H2) as (gd & Sg & Mg). rewrite Sg. cbn [bind].
      destruct (collection (snd po) _ _ M1 ND1) as [_ Co']; [intros v I; rewrite G2 by auto; apply filter_In in I; apply G; tauto|]. destruct (Co' fp H1) as (d & Sd & Md). rewrite Sd. cbn [bind]. unfold RunFormModel.write_step. rewrite Md. cbn [bind]. rewrite Mg. reflexivity.
    + rewrite H2 in M2. inversion M2 as [Hx Hy|]. destruct (collection (input_annotations l) _ _ M1 ND1) as [_ Co']; [intros v I; apply filter_In in I; apply G; tauto|]. destruct (Co' fp H1) as (d & Sd & Md). rewrite Sd. cbn [bind]. unfold RunFormModel.write_step. rewrite Md. reflexivity.
Qed.
Lemma step_one_shown (s : step R) (f : step_form F R) : (forall v, In v (s_inputs s) -> In v inputs) -> (step_one s f <-> step_shown s f /\ forall g, f_group f = Some g -> g_title g = group_name pretty s).
Proof.
  intros Sub. assert (Eq : forall l r, (forall v, In v l -> In v inputs) -> (Forall2 (fun v f => one v = Ok f) l r <-> Forall2 property l r)).
  { intros l r H. split; intros F2; induction F2; constructor; try (apply one_property; auto; apply H; left; auto); apply IHF2; intros; apply H; right; auto. }
  assert (S1 : forall v, In v (filter (fun v => negb (in_group s v)) (s_inputs s)) -> In v inputs) by (intros v I; apply filter_In in I; apply Sub; tauto).
  assert (S2 : forall v, In v (filter (in_group s) (s_inputs s)) -> In v inputs) by (intros v I; apply filter_In in I; apply Sub; tauto).
  unfold step_one, RunFormSpec.step_shown. rewrite (Eq _ _ S1). destruct (f_group f) as [g|].
  - rewrite (Eq _ _ S2). split.
    + intros (A & B' & C' & N & H & K & Ti). repeat (split; [assumption|]). split; [|intros g' E; injection E as <-; exact Ti]. repeat (split; [assumption|]). split.
      * destruct (filter (in_group s) (s_inputs s)) as [|v l] eqn:E; [congruence|]. exists v. assert (I : In v (filter (in_group s) (s_inputs s))) by (rewrite E; left; auto). apply filter_In in I. destruct I as [I J]. split; [exact I|apply memb_nat; exact J].
      * split; [assumption|]. split; [assumption|]. rewrite Ti. unfold group_name. repeat split.
        -- intros ->. reflexivity.
        -- intros ->. reflexivity.
        -- intros t -> Nt. apply String.eqb_neq in Nt. rewrite Nt. reflexivity.
        -- intros ->. reflexivity.
    + intros ((A & B' & C' & (v & I & J) & H & K & _) & Ti). repeat (split; [assumption|]). split; [|auto]. apply memb_nat in J. intros E. assert (Iv : In v (filter (in_group s) (s_inputs s))) by (apply filter_In; auto). rewrite E in Iv. destruct Iv.
  - split.
    + intros (A & B' & C' & N). repeat split; try assumption; [|discriminate]. intros v I J. apply memb_nat in J. assert (Iv : In v (filter (in_group s) (s_inputs s))) by (apply filter_In; auto). rewrite N in Iv. destruct Iv.
    + intros ((A & B' & C' & N) & _). repeat split; try assumption. destruct (filter (in_group s) (s_inputs s)) as [|v l] eqn:E; [reflexivity|]. assert (I : In v (filter (in_group s) (s_inputs s))) by (rewrite E; left; auto). apply filter_In in I. destruct I as [I J]. exfalso. apply (N v I), memb_nat, J.
Qed.
Lemma shown_title' (s : step R) (f : step_form F R) : step_shown s f -> forall g, f_group f = Some g -> g_title g = group_name pretty s.
Proof.
  intros (_ & _ & _ & H) g E. rewrite E in H. destruct H as (_ & _ & _ & T1 & T2 & T3 & T4). unfold group_name. destruct (s_selector s) as [[t|]|].
  - destruct (String.eqb t "") eqn:Et; [apply String.eqb_eq in Et; subst; auto|apply String.eqb_neq in Et; auto].
  - auto.
  - auto.
Qed.

Lemma spare_iff spare r : (forall v, In v spare -> In v inputs) -> NoDup spare ->
  ((exists sa sp, mapM input_schema spare = Ok sa /\ mapM (fun a => let* t := of_option KeyError (get (a_key a) (input_annotations spare)) in get_schema t a) sa = Ok sp /\ mapM to_dict sp = Ok r) <-> Forall2 (fun v f => one v = Ok f) spare r).
Proof.
  intros Sub ND. assert (G : forall v, In v spare -> get (address v) (input_annotations spare) = Some (v_type (var v))) by (intros v I; apply get_annotation; [apply nodup_keys; auto|auto]).
  generalize dependent (input_annotations spare). intros ann G. clear ND. revert r. induction spare as [|v l IH]; intros r.
  - split; [intros (sa & sp & E1 & E2 & E3); injection E1 as <-; injection E2 as <-; injection E3 as <-; constructor|]. intros H. inversion H. exists [], []. auto.
  - assert (IH' := IH (fun w I => Sub w (or_intror I)) (fun w I => G w (or_intror I))). clear IH. split.
    + intros (sa & sp & E1 & E2 & E3). cbn [mapM] in E1. destruct (input_schema v) as [a|e] eqn:Ia; cbn [bind] in E1; [|discriminate]. destruct (mapM input_schema l) as [la|e] eqn:Ma; cbn [bind] in E1; [|discriminate]. injection E1 as <-. cbn [mapM] in E2. rewrite (input_schema_key v a Ia), (G v (or_introl eq_refl)) in E2. cbn [of_option bind] in E2. destruct (get_schema (v_type (var v)) a) as [p|e] eqn:Gp; cbn [bind] in E2; [|discriminate]. destruct (mapM (fun a => let* t := of_option KeyError (get (a_key a) ann) in get_schema t a) la) as [lp|e] eqn:Mp in E2; cbn [bind] in E2; [|discriminate]. injection E2 as <-. cbn [mapM] in E3. destruct (to_dict p) as [f|e] eqn:Tp; cbn [bind] in E3; [|discriminate]. destruct (mapM to_dict lp) as [fs|e] eqn:Mf; cbn [bind] in E3; [|discriminate]. injection E3 as <-. constructor.
      * unfold one. rewrite Ia. cbn [bind]. rewrite Gp. exact Tp.
      * apply IH'. exists la, lp. auto.
    + intros H. inversion H as [|v' f l' r' E H']; subst. unfold one in E. destruct (input_schema v) as [a|e] eqn:Ia; cbn [bind] in E; [|discriminate]. destruct (get_schema (v_type (var v)) a) as [p|e] eqn:Gp; cbn [bind] in E; [|discriminate]. apply IH' in H'. destruct H' as (la & lp & E1 & E2 & E3). exists (a :: la), (p :: lp). cbn [mapM]. rewrite Ia. cbn [bind]. rewrite E1. cbn [bind]. split; [reflexivity|]. rewrite (input_schema_key v a Ia), (G v (or_introl eq_refl)). cbn [of_option bind]. rewrite Gp. cbn [bind]. rewrite E2. cbn [bind]. split; [reflexivity|]. rewrite E. cbn [bind]. rewrite E3. reflexivity.
Qed.

Lemma method_schemas_iff (steps : list (step R)) spare fs ps : (forall v, In v spare -> In v inputs) -> NoDup spare -> (forall s, In s steps -> NoDup (s_inputs s) /\ forall v, In v (s_inputs s) -> In v inputs) ->
  (method_schemas steps spare = Ok (fs, ps) <-> Forall2 step_shown steps fs /\ Forall2 property spare ps).
Proof.
  intros Ss NDs St. assert (A1 : Forall2 property spare ps <-> Forall2 (fun v f => one v = Ok f) spare ps).
  { clear St NDs. split; intros F2; induction F2; constructor; try (apply one_property; auto; apply Ss; left; auto); apply IHF2; intros; apply Ss; right; auto. }
  rewrite A1, <- (spare_iff spare ps Ss NDs). clear A1.
  assert (A2 : Forall2 step_shown steps fs <-> Forall2 (fun s f => step_form_of s = Ok f) steps fs).
  { assert (Eq : forall s f, In s steps -> (step_shown s f <-> step_form_of s = Ok f)).
    { intros s f I. destruct (St s I) as [N Su]. rewrite (step_iff s f N Su), (step_one_shown s f Su). split; [intros H; split; [exact H|apply shown_title'; exact H]|tauto]. }
    clear St. split; intros F2; induction F2; constructor; try (apply Eq; [left; auto|auto]); apply IHF2; intros; apply Eq; right; auto. }
  rewrite A2. clear A2. unfold RunFormModel.method_schemas.
  assert (A3 : (exists bs, mapM (fun s => let* b := build_step s in Ok (s, b)) steps = Ok bs /\ mapM (fun x => write_step (fst x) (snd x)) bs = Ok fs) <-> Forall2 (fun s f => step_form_of s = Ok f) steps fs).
  { clear St. revert fs. induction steps as [|s l IH]; intros fs.
    - split; [intros (bs & E1 & E2); injection E1 as <-; injection E2 as <-; constructor|intros H; inversion H; exists []; auto].
    - split.
      + intros (bs & E1 & E2). cbn [mapM] in E1. destruct (build_step s) as [b|e] eqn:Bs; cbn [bind] in E1; [|discriminate]. destruct (mapM (fun s => let* b := build_step s in Ok (s, b)) l) as [bl|e] eqn:Ml; cbn [bind] in E1; [|discriminate]. injection E1 as <-. cbn [mapM fst snd] in E2. destruct (write_step s b) as [f|e] eqn:Wf; cbn [bind] in E2; [|discriminate]. destruct (mapM (fun x => write_step (fst x) (snd x)) bl) as [fl|e] eqn:Mf; cbn [bind] in E2; [|discriminate]. injection E2 as <-. constructor; [unfold step_form_of; rewrite Bs; exact Wf|]. apply IH. eauto.
      + intros H. inversion H as [|s' f l' fl E H']; subst. unfold step_form_of in E. destruct (build_step s) as [b|e] eqn:Bs; cbn [bind] in E; [|discriminate]. apply IH in H'. destruct H' as (bl & E1 & E2). exists ((s, b) :: bl). cbn [mapM]. rewrite Bs. cbn [bind]. rewrite E1. cbn [bind fst snd]. rewrite E. cbn [bind]. rewrite E2. auto. }
  rewrite <- A3. clear A3. split.
  - intros E. destruct (mapM (fun s => let* b := build_step s in Ok (s, b)) steps) as [bs|e] eqn:E1; cbn [bind] in E; [|discriminate]. destruct (mapM input_schema spare) as [sa|e] eqn:E2; cbn [bind] in E; [|discriminate]. destruct (mapM (fun a => let* t := of_option KeyError (get (a_key a) (input_annotations spare)) in get_schema t a) sa) as [sp|e] eqn:E3; cbn [bind] in E; [|discriminate]. destruct (mapM (fun x => write_step (fst x) (snd x)) bs) as [fs'|e] eqn:E4; cbn [bind] in E; [|discriminate]. destruct (mapM to_dict sp) as [ps'|e] eqn:E5; cbn [bind] in E; [|discriminate]. injection E as <- <-. split; [eauto|]. exists sa, sp. auto.
  - intros ((bs & E1 & E4) & sa & sp & E2 & E3 & E5). rewrite E1. cbn [bind]. rewrite E2. cbn [bind]. rewrite E3. cbn [bind]. rewrite E4. cbn [bind]. rewrite E5. reflexivity.
Qed.
End Proofs.

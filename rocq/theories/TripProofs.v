From Coq Require Import ZArith Bool String Ascii Relations Lia List.
From Verif Require Import Base BaseProofs PyValue DataModel DataSpec DataProofs PathsModel PathsSpec PathsProofs SerialModel SerialSpec SerialProofs
  PointersModel PointersSpec PointersProofs Topo DerefModel DerefSpec DerefProofs TripSpec.
Import ListNotations.
Open Scope string_scope.
Open Scope list_scope.

Section E.
Variable non_serializable non_data_eq : string -> list string.
Variable arguments : string -> list string.
Notation data_eq := (data_eq non_serializable non_data_eq).
Notation recovered := (recovered non_serializable arguments).

Lemma recovered_data_eq v : wf_val v -> nan_free v ->
  everywhere (fun v => forall c d s, v = VObj c d -> In (KStr s) (map fst d) -> counts non_serializable non_data_eq c (KStr s) -> In s (arguments c)) v ->
  forall w, recovered v w -> data_eq v w = true.
Proof.
  unfold nan_free. induction v using val_ind'; intros W N C w R;
    inversion R as [v0 S D O|v0 w0 l0 m S S' F|d0 e ND K F|c0 d0 e ND K F]; subst; try discriminate;
    try (exfalso; eapply D; reflexivity); try (exfalso; eapply O; reflexivity).
  - reflexivity.
  - simpl. apply eqb_reflx.
  - simpl. apply Z.eqb_refl.
  - simpl. apply isclose_refl. apply everywhere_here in N. intros ->. apply N. reflexivity.
  - simpl. apply String.eqb_refl.
  - simpl in S. injection S as <-. rewrite (data_eq_seq_iff non_serializable non_data_eq (VList l) _ l eq_refl). exists m. split; auto.
    pose proof (wf_seq _ _ W eq_refl) as Wl. pose proof (everywhere_seq _ _ _ N eq_refl) as Nl. pose proof (everywhere_seq _ _ _ C eq_refl) as Cl.
    clear - H Wl Nl Cl F. revert m F. induction l as [|x l IH]; intros m F; inversion F; subst; constructor; inversion H; inversion Wl; inversion Nl; inversion Cl; subst; eauto.
  - simpl in S. injection S as <-. rewrite (data_eq_seq_iff non_serializable non_data_eq (VTuple l) _ l eq_refl). exists m. split; auto.
    pose proof (wf_seq _ _ W eq_refl) as Wl. pose proof (everywhere_seq _ _ _ N eq_refl) as Nl. pose proof (everywhere_seq _ _ _ C eq_refl) as Cl.
    clear - H Wl Nl Cl F. revert m F. induction l as [|x l IH]; intros m F; inversion F; subst; constructor; inversion H; inversion Wl; inversion Nl; inversion Cl; subst; eauto.
  - rewrite data_eq_dict_iff. intros k x I. destruct (keys_in k e) as [y Y]; [apply K; eapply in_keys; eauto|].
    exists y. split; [apply In_lookup; auto|]. rewrite Forall_forall in H.
    apply (H _ I); eauto; [apply (wf_dict_in _ _ _ W I)|apply (everywhere_dict _ _ _ _ N I)|apply (everywhere_dict _ _ _ _ C I)].
  - rewrite data_eq_obj_iff. split; auto. intros k x I CK. assert (KS : exists s, k = KStr s).
    { inversion W as [| | | | | | | |? ? _ KF _|]; subst. rewrite Forall_forall in KF. apply (KF _ I). }
    destruct KS as [s ->].
    assert (SK : serialised non_serializable c (KStr s)).
    { destruct CK as [K1 [K2 _]]. split.
      - intros M. apply in_map_iff in M. destruct M as [t [E M]]. apply (K2 t M). auto.
      - intros [t E]. apply (K1 t E). }
    assert (SA : In s (arguments c)) by (apply (everywhere_here _ _ C c d s eq_refl); auto; eapply in_keys; eauto).
    destruct (keys_in (KStr s) e) as [y Y]; [apply K; auto; eapply in_keys; eauto|].
    exists y. split; [apply In_lookup; auto|]. rewrite Forall_forall in H.
    apply (H _ I); eauto; [apply (wf_obj_in _ _ _ _ W I)|apply (everywhere_obj _ _ _ _ _ N I)|apply (everywhere_obj _ _ _ _ _ C I)].
  - reflexivity.
Qed.
End E.

Section T.
Variable non_serializable : string -> list string.
Variable jsonable : val -> bool.
Variable annotation_of_class : string -> string.
Variable str_key : key -> string.
Variable str_nat : nat -> string.
Variable int_of : string -> option Z.
Variable isdigit : string -> bool.
Variable class_named : string -> res (option val).
Variable find_class : val -> res string.
Variable arguments : string -> list string.
Variable tuple_annotated : string -> string -> bool.
Variable construct : string -> list (key * val) -> res val.
Hypothesis str_key_str : forall s, str_key (KStr s) = s.
Hypothesis str_nat_slash : forall n, no_slash (str_nat n).
Hypothesis int_str_nat : forall n, int_of (str_nat n) = Some (Z.of_nat n).
Notation serialize := (serialize non_serializable jsonable annotation_of_class).
Notation serialised := (serialised non_serializable).
Notation portable := (portable non_serializable annotation_of_class class_named find_class arguments construct).
Notation rebuilds := (rebuilds non_serializable arguments construct).
Notation recovered := (recovered non_serializable arguments).
Notation part := (part str_key str_nat).
Notation RK := (KStr "$ref").
Notation OC := (KStr "object_class").
Notation NM := (KStr "name").

Definition good (y : val) : Prop := wf_val y /\ good_keys y /\ portable y.
Lemma good_seq v l y : seq_of v = Some l -> In y l -> good v -> good y.
Proof.
  intros S I [W [G P]]. repeat split.
  - pose proof (wf_seq _ _ W S) as F. rewrite Forall_forall in F. auto.
  - pose proof (everywhere_seq _ _ _ G S) as F. rewrite Forall_forall in F. exact (F _ I).
  - pose proof (everywhere_seq _ _ _ P S) as F. rewrite Forall_forall in F. exact (F _ I).
Qed.
Lemma good_dict d k y : In (k, y) d -> good (VDict d) -> good y.
Proof. intros I [W [G P]]. repeat split; [eapply wf_dict_in; eauto|exact (everywhere_dict _ _ _ _ G I)|exact (everywhere_dict _ _ _ _ P I)]. Qed.
Lemma good_obj c d k y : In (k, y) d -> good (VObj c d) -> good y.
Proof. intros I [W [G P]]. repeat split; [eapply wf_obj_in; eauto|exact (everywhere_obj _ _ _ _ _ G I)|exact (everywhere_obj _ _ _ _ _ P I)]. Qed.

(** the entries of a serialised object, of a serialised dictionary *)
Lemma ser_obj c d s : good (VObj c d) -> serialize (VObj c d) = Ok s ->
  exists e n, s = VDict e /\ NoDup (map fst e) /\ In (OC, VStr c) e /\ In (NM, VStr n) d /\ In (NM, VStr n) e
   /\ (forall k, In k (map fst e) <-> k = OC \/ k = NM \/ In k (map fst d) /\ serialised c k)
   /\ (forall k y, In (k, y) e -> k <> OC -> k <> NM -> exists x, In (k, x) d /\ serialised c k /\ serialize x = Ok y).
Proof.
  intros [W [G P]] S. pose proof S as S0. apply everywhere_here in P. simpl in P. destruct P as [_ [_ [NO [_ [[n NN] _]]]]].
  destruct (serialize_content _ _ _ c d s W S NO) as [e [-> [ND [IO [_ H]]]]]. pose proof (wf_obj_nodup _ _ W) as NDD.
  apply serialize_obj in S0. destruct S0 as [name [items [L [F E]]]]. injection E as ->.
  rewrite (proj1 (In_lookup _ _ _ NDD) NN) in L. injection L as <-.
  pose proof (items_nodup non_serializable jsonable annotation_of_class c d items NDD F) as NI.
  set (e := update _ items) in *.
  assert (IN : In (NM, VStr n) e).
  { apply In_lookup; auto. unfold e. rewrite update_lookup by auto. destruct (lookup NM items) as [y|] eqn:Y; [|reflexivity].
    apply lookup_In in Y. destruct (Forall2_in_right _ _ _ _ F Y) as [[k x] [X1 [X2 X3]]]. simpl in X2, X3. subst k. apply filter_In in X1.
    rewrite (keys_fun _ _ _ _ NDD (proj1 X1) NN) in X3. simpl in X3. destruct (jsonable (VStr n)); [|discriminate]. congruence. }
  exists e, n. split; auto. split; auto. split; auto. split; auto. split; auto. split.
  - intros k. destruct (key_dec k OC) as [->|D1]; [split; auto; intros _; eapply in_keys; eauto|].
    destruct (key_dec k NM) as [->|D2]; [split; auto; intros _; eapply in_keys; eauto|].
    destruct (H k D1 D2) as [H1 _]. rewrite H1. tauto.
  - intros k y I D1 D2. destruct (H k D1 D2) as [H1 H2]. destruct (H2 y I) as [x [X1 X2]]. exists x. split; auto. split; auto.
    apply H1. eapply in_keys; eauto.
Qed.
Lemma ser_dict d s : good (VDict d) -> serialize (VDict d) = Ok s ->
  exists e, s = VDict e /\ map fst e = map fst d /\ (forall k y, In (k, y) e -> exists x, In (k, x) d /\ serialize x = Ok y).
Proof.
  intros G S. cbn [SerialModel.serialize] in S. destruct (map_items serialize (fun _ => true) d) as [r|] eqn:M; [|discriminate]. injection S as <-.
  apply map_items_ok in M. assert (FT : filter (fun _ : key * val => true) d = d) by (clear; induction d as [|a d IH]; simpl; congruence).
  rewrite FT in M. exists r. split; auto. split; [exact (Forall2_keys (fun x y => serialize x = Ok y) _ _ M)|].
  intros k y I. destruct (Forall2_in_right _ _ _ _ M I) as [[j x] [X1 [X2 X3]]]. simpl in X2, X3. subst j. eauto.
Qed.
Lemma ser_seq v l s : seq_of v = Some l -> serialize v = Ok s -> exists r, s = VList r /\ Forall2 (fun x y => serialize x = Ok y) l r.
Proof.
  intros Q S. destruct v; try discriminate; simpl in Q; injection Q as <-; cbn [SerialModel.serialize] in S;
    destruct (map_seq _ _) as [r|] eqn:M; try discriminate; injection S as <-; apply map_seq_ok in M; eauto.
Qed.
(** what is serialised as a dictionary, as a list *)
Lemma ser_of_dict y e : good y -> serialize y = Ok (VDict e) ->
  (forall k, In k (map fst e) -> exists s, k = KStr s /\ no_slash s)
  /\ (forall k z, In (k, z) e -> (exists x, good x /\ serialize x = Ok z) \/ exists t, z = VStr t).
Proof.
  intros G S. destruct y as [|b|z|f|s|l|l|d|c d|n b];
    try (simpl in S; match type of S with (if ?b then _ else _) = _ => destruct b; discriminate end).
  - destruct (ser_seq (VList l) l _ eq_refl S) as [r [E _]]. discriminate.
  - destruct (ser_seq (VTuple l) l _ eq_refl S) as [r [E _]]. discriminate.
  - destruct (ser_dict d _ G S) as [e' [E [K H]]]. injection E as <-. split.
    + intros k I. rewrite K in I. destruct G as [_ [G _]]. apply everywhere_here in G. destruct (G k I) as [s [-> [A _]]]. eauto.
    + intros k z I. left. destruct (H k z I) as [x [X1 X2]]. exists x. split; auto. eapply good_dict; eauto.
  - destruct (ser_obj c d _ G S) as [e' [n [E [ND [IO [IN [IE [K H]]]]]]]]. injection E as <-. split.
    + intros k I. apply K in I. destruct I as [->|[->|[I _]]].
      * exists "object_class". split; auto. unfold no_slash; simpl; intuition discriminate.
      * exists "name". split; auto. unfold no_slash; simpl; intuition discriminate.
      * destruct G as [_ [G _]]. apply everywhere_here in G. destruct G as [G _]. destruct (G k I) as [s [-> [[A _] _]]]. eauto.
    + intros k z I. destruct (key_dec k OC) as [->|D1]; [right; rewrite (keys_fun _ _ _ _ ND I IO); eauto|].
      destruct (key_dec k NM) as [->|D2]; [right; rewrite (keys_fun _ _ _ _ ND I IE); eauto|].
      left. destruct (H k z I D1 D2) as [x [X1 [_ X2]]]. exists x. split; auto. eapply good_obj; eauto.
  - discriminate.
Qed.
Lemma ser_of_list y r : good y -> serialize y = Ok (VList r) -> forall z, In z r -> exists x, good x /\ serialize x = Ok z.
Proof.
  intros G S z I. destruct y as [|b|i|f|s|l|l|d|c d|n b];
    try (simpl in S; match type of S with (if ?b then _ else _) = _ => destruct b; discriminate end); try discriminate.
  - destruct (ser_seq (VList l) l _ eq_refl S) as [r' [E F]]. injection E as <-. destruct (Forall2_in_right _ _ _ _ F I) as [x [X1 X2]].
    exists x. split; auto. eapply good_seq; eauto. reflexivity.
  - destruct (ser_seq (VTuple l) l _ eq_refl S) as [r' [E F]]. injection E as <-. destruct (Forall2_in_right _ _ _ _ F I) as [x [X1 X2]].
    exists x. split; auto. eapply good_seq; eauto. reflexivity.
  - destruct (ser_dict d _ G S) as [e' [E _]]. discriminate.
  - destruct (ser_obj c d _ G S) as [e' [n [E _]]]. discriminate.
Qed.

Section Doc.
Variable o refs : list (key * val).
Notation root := (VDict o).
Notation denotes := (denotes refs).
Notation pointer := (pointer str_key str_nat root).
Notation mentioned := (mentioned str_key str_nat root).
Notation depends := (depends str_key str_nat root).
Notation describes := (describes str_key str_nat class_named find_class arguments tuple_annotated construct root).
Notation RF := (KStr "_references").
Hypothesis JS : json root.
Hypothesis OR : In (RF, VDict refs) o.
Hypothesis NDG : no_dangling refs root.
Hypothesis ONR : ~ In RK (map fst o).
Hypothesis OK : forall s, In (KStr s) (map fst o) -> exists c r, s = String c r /\ c <> "#"%char /\ c <> "/"%char.
Hypothesis ON : forall k, In k (map fst o) -> exists s, k = KStr s /\ no_slash s.
Hypothesis RE : forall k x, In (k, x) refs -> exists id e, k = KStr id /\ no_slash id /\ id <> "$ref" /\ id <> "object_class" /\ x = VDict e /\ ~ In RK (map fst e).
Hypothesis RD : forall k x, In (k, x) refs -> exists y s, good y /\ serialize y = Ok s /\ denotes x s.
Hypothesis OD : forall k x, In (k, x) o -> k <> RF -> (exists y s, good y /\ serialize y = Ok s /\ denotes x s) \/ exists t, x = VStr t.

Lemma json_wf v : json v -> wf_val v.
Proof.
  induction v using val_ind'; intros J; inversion J as [| | | | |? F|? N F]; subst; constructor; auto.
  - rewrite Forall_forall in *. auto.
  - rewrite Forall_forall in *. auto.
Qed.
Lemma root_wf : wf_val root.
Proof. apply json_wf, JS. Qed.
Lemma o_nodup : NoDup (map fst o).
Proof. inversion JS. auto. Qed.
Lemma refs_wf : wf_val (VDict refs).
Proof. pose proof root_wf as W. eapply wf_dict_in; eauto. Qed.
Lemma refs_nodup' : NoDup (map fst refs).
Proof. pose proof refs_wf as W. inversion W. auto. Qed.
Lemma refs_noref : ~ In RK (map fst refs).
Proof. intros I. apply keys_in in I. destruct I as [x I]. apply RE in I. destruct I as [id [e [E [_ [D _]]]]]. congruence. Qed.
Lemma json_noclass v : json v -> everywhere (fun w => forall n b, w <> VClass n b) v.
Proof.
  induction v using val_ind'; intros J; inversion J as [| | | | |? F|? N F]; subst; constructor; try (intros; discriminate); rewrite Forall_forall in *; auto.
Qed.
Lemma everywhere_and (P Q : val -> Prop) v : everywhere P v -> everywhere Q v -> everywhere (fun w => P w /\ Q w) v.
Proof.
  induction v using val_ind'; intros A B; inversion A; inversion B; subst; constructor; auto; rewrite Forall_forall in *; auto.
Qed.
Lemma root_pointers : pointers_ok root.
Proof.
  eapply everywhere_and; [apply json_noclass, JS|]. unfold no_dangling in NDG.
  assert (H : forall (P Q : val -> Prop) v, (forall w, P w -> Q w) -> everywhere P v -> everywhere Q v).
  { clear. intros P Q v H. induction v using val_ind'; intros A; inversion A; subst; constructor; auto; rewrite Forall_forall in *; auto. }
  eapply H; [|exact NDG]. intros w A d t E I. destruct (A d t E I) as [id [-> _]]. eauto.
Qed.

(** *** what things denote *)
Lemma denotes_cases x s : denotes x s ->
  (exists d id x', x = VDict d /\ In (RK, VStr (pointer_to id)) d /\ In (KStr id, x') refs /\ denotes x' s)
  \/ (leaf x /\ s = x) \/ (exists l m, x = VList l /\ s = VList m /\ Forall2 denotes l m)
  \/ (exists d e, x = VDict d /\ s = VDict e /\ NoDup (map fst d) /\ ~ In RK (map fst d) /\ (forall k, In k (map fst d) <-> In k (map fst e))
       /\ (forall k x y, In (k, x) d -> In (k, y) e -> denotes x y)).
Proof.
  intros D. destruct D as [v L|l m F|d e N NR K H|d id x s N I R H]; [right; left; auto|right; right; left; eauto| |].
  - right. right. right. exists d, e. repeat (split; auto); apply K.
  - left. exists d, id, x. auto.
Qed.
Lemma target_dict k x s : In (k, x) refs -> denotes x s ->
  exists d e, x = VDict d /\ s = VDict e /\ NoDup (map fst d) /\ ~ In RK (map fst d) /\ (forall k, In k (map fst d) <-> In k (map fst e))
       /\ (forall k x y, In (k, x) d -> In (k, y) e -> denotes x y).
Proof.
  intros I D. destruct (RE k x I) as [id [e [-> [_ [_ [_ [-> NR]]]]]]].
  destruct (denotes_cases _ _ D) as [[d [id' [x' [E [R _]]]]]|[[L _]|[[l [m [E _]]]|H]]]; try discriminate; auto; [|destruct L].
  exfalso. injection E as ->. apply NR. eapply in_keys; eauto.
Qed.
Lemma denotes_str x t : denotes x (VStr t) -> x = VStr t.
Proof.
  intros D. destruct (denotes_cases _ _ D) as [[d [id' [x' [-> [R [I D']]]]]]|[[L E]|[[l [m [-> [E _]]]]|[d [e [-> [E _]]]]]]]; try discriminate; auto.
  destruct (target_dict _ _ _ I D') as [d' [e [_ [E _]]]]. discriminate.
Qed.
Definition known (x : val) : Prop := (exists y s, good y /\ serialize y = Ok s /\ denotes x s) \/ exists t, x = VStr t.
Lemma known_part w q x : part w q x -> known w -> known x.
Proof.
  induction 1 as [v|d k z q x N I P IH|v l i z q x S N P IH]; auto; intros K; apply IH; destruct K as [[y [s [G [Sy D]]]]|[t E]]; try discriminate.
  - destruct (denotes_cases _ _ D) as [[d' [id' [x' [E [R _]]]]]|[[L _]|[[l [m [E _]]]|[d' [e [E [-> [ND [_ [K H]]]]]]]]]]; try discriminate.
    + exfalso. injection E as ->. apply N. eapply in_keys; eauto.
    + destruct L.
    + injection E as <-. destruct (keys_in k e) as [z' Z]; [apply K; eapply in_keys; eauto|].
      destruct (ser_of_dict y e G Sy) as [_ C]. destruct (C k z' Z) as [[x0 [G0 S0]]|[t ->]].
      * left. exists x0, z'. split; auto. split; auto. eauto.
      * right. exists t. apply denotes_str. eauto.
  - destruct (denotes_cases _ _ D) as [[d' [id' [x' [-> _]]]]|[[L _]|[[l' [m [-> [-> F]]]]|[d' [e [-> _]]]]]]; try discriminate.
    + destruct v; try discriminate; destruct L.
    + simpl in S. injection S as ->. apply nth_error_In in N. destruct (Forall2_in_left _ _ _ _ F N) as [z' [Z1 Z2]].
      destruct (ser_of_list y m G Sy z' Z1) as [x0 [G0 S0]]. left. exists x0, z'. auto.
  - subst. discriminate.
Qed.
Lemma root_part q x : part root q x -> (q = [] /\ x = root) \/ (q = ["_references"] /\ x = VDict refs) \/ known x.
Proof.
  intros P. apply part_dict in P. destruct P as [[-> ->]|[k [y [r [-> [_ [I P]]]]]]]; auto. right.
  destruct (key_dec k RF) as [->|D].
  - rewrite (keys_fun _ _ _ _ o_nodup I OR) in P. apply part_dict in P. rewrite str_key_str.
    destruct P as [[-> ->]|[k [z [q [-> [_ [Z P]]]]]]]; auto. right. eapply known_part; eauto. left. apply (RD k z Z).
  - right. eapply known_part; eauto. apply (OD k y I D).
Qed.
Lemma root_named : named_keys str_key str_nat root.
Proof.
  split; [|exists o; auto]. intros q d k P N I. destruct (root_part _ _ P) as [[-> E]|[[-> E]|[[y [s [G [S D]]]]|[t E]]]].
  - injection E as ->. auto.
  - injection E as ->. apply keys_in in I. destruct I as [x I]. destruct (RE _ _ I) as [id [e [-> [A _]]]]. eauto.
  - destruct (denotes_cases _ _ D) as [[d' [id' [x' [E [R _]]]]]|[[L _]|[[l [m [E _]]]|[d' [e [E [-> [ND [_ [K H]]]]]]]]]]; try discriminate.
    + exfalso. injection E as ->. apply N. eapply in_keys; eauto.
    + destruct L.
    + injection E as <-. destruct (ser_of_dict y e G S) as [A _]. apply A, K, I.
  - discriminate.
Qed.

(** *** pointers *)
Lemma pointer_to_full id : pointer_to id = full ["_references"; id].
Proof. reflexivity. Qed.
Lemma refs_part : part root ["_references"] (VDict refs).
Proof. rewrite <- (str_key_str "_references"). econstructor; eauto. constructor. Qed.
Lemma target_part id x : In (KStr id, x) refs -> part root ["_references"; id] x.
Proof.
  intros I. rewrite <- (str_key_str "_references"), <- (str_key_str id). eapply pa_key; [auto|exact OR|].
  eapply pa_key; [apply refs_noref|exact I|constructor].
Qed.
Lemma refs_at q x s : part root q x -> q = ["_references"] ++ s :: nil -> In (KStr s, x) refs.
Proof.
  intros P ->. apply part_dict in P. destruct P as [[E _]|[k [y [r [E [_ [I P]]]]]]]; [discriminate|]. injection E as E1 <-.
  destruct (ON k (in_keys _ _ _ I)) as [k' [-> _]]. rewrite str_key_str in E1. subst k'.
  rewrite (keys_fun _ _ _ _ o_nodup I OR) in P. apply part_dict in P. destruct P as [[E _]|[k [z [r [E [_ [Z P]]]]]]]; [discriminate|].
  injection E as E1 <-. destruct (RE _ _ Z) as [id [e [-> _]]]. rewrite str_key_str in E1. subst id. inversion P; subst; auto.
Qed.
Lemma pointer_target p t : pointer p t -> exists segs d id x, p = full segs /\ part root segs (VDict d) /\ In (RK, VStr t) d
  /\ t = pointer_to id /\ In (KStr id, x) refs /\ no_slash id.
Proof.
  intros [segs [d [P [I E]]]]. pose proof (everywhere_here _ _ (part_everywhere _ _ _ _ _ _ P NDG)) as H.
  destruct (H d (VStr t) eq_refl I) as [id [E2 K]]. injection E2 as ->. apply keys_in in K. destruct K as [x K].
  exists segs, d, id, x. repeat (split; auto). destruct (RE _ _ K) as [id' [e [E3 [N _]]]]. congruence.
Qed.
Lemma root_segs q x : part root q x -> Forall no_slash q.
Proof. intros P. eapply part_segs; eauto. exact (proj1 root_named). Qed.
Lemma refs_slash : no_slash "_references".
Proof. unfold no_slash. simpl. intuition discriminate. Qed.
Lemma prefix_of m segs : Forall no_slash segs -> within m (full segs) -> exists q r, segs = q ++ r /\ m = full q.
Proof.
  intros F W. apply within_split in W. destruct W as [ext E]. rewrite split_full in E by auto.
  destruct (split_nonempty m) as [a [l L]]. rewrite L in E. injection E as <- E. exists l, ext. split; auto.
  apply split_inj. rewrite L, split_full; auto. rewrite E in F. apply Forall_app in F. tauto.
Qed.
Lemma part_prefix q : forall v r x, part v (q ++ r) x -> exists y, part v q y /\ part y r x.
Proof.
  induction q as [|s q IH]; intros v r x P; simpl in P; [exists v; split; auto; constructor|].
  inversion P as [|d k z segs x' N I Q|v' l i z segs x' S N Q]; subst; destruct (IH _ _ _ Q) as [y [Y1 Y2]]; exists y; split; auto; econstructor; eauto.
Qed.
Lemma mentioned_part m : mentioned m -> exists q x r d, m = full q /\ part root q x /\ part x r (VDict d).
Proof.
  intros [p [t [P W]]]. destruct (pointer_target p t P) as [segs [d [id [x [-> [PA [I [-> [R N]]]]]]]]]. destruct W as [W|W].
  - destruct (prefix_of m segs (root_segs _ _ PA) W) as [q [r [-> ->]]]. destruct (part_prefix _ _ _ _ PA) as [y [Y1 Y2]]. exists q, y, r, d. auto.
  - rewrite pointer_to_full in W. apply prefix_of in W; [|repeat constructor; auto using refs_slash]. destruct W as [q [r [E ->]]].
    pose proof (target_part id x R) as PT. rewrite E in PT. destruct (part_prefix _ _ _ _ PT) as [y [Y1 Y2]].
    destruct (RE _ _ R) as [_ [e [_ [_ [_ [_ [-> _]]]]]]]. exists q, y, r, e. auto.
Qed.
Lemma root_rooted : rooted str_key str_nat root.
Proof. intros p t P. destruct (pointer_target p t P) as [_ [_ [id [_ [_ [_ [_ [-> _]]]]]]]]. right. exists ("_references/" ++ id)%string. reflexivity. Qed.
Lemma root_deep p t : pointer p t -> length (PathsModel.split t) <= 3.
Proof.
  intros P. destruct (pointer_target p t P) as [_ [_ [id [_ [_ [_ [_ [-> [_ N]]]]]]]]]. rewrite pointer_to_full, split_full; [auto|].
  repeat constructor; auto using refs_slash.
Qed.
Lemma root_fun q x y : part root q x -> part root q y -> x = y.
Proof. apply part_fun with (int_of := int_of); auto; [exact (proj1 root_named)|apply root_wf]. Qed.
Lemma root_direct : direct str_key str_nat root.
Proof.
  intros p t p' t' P P' W. destruct (pointer_target p t P) as [_ [_ [id [x [_ [_ [_ [-> [R N]]]]]]]]].
  destruct (pointer_target p' t' P') as [segs [d [_ [_ [-> [PA [I _]]]]]]]. rewrite pointer_to_full in W.
  apply prefix_of in W; [|repeat constructor; auto using refs_slash]. destruct W as [q [r [E1 E2]]].
  assert (FQ : Forall no_slash q).
  { assert (F : Forall no_slash ["_references"; id]) by (repeat constructor; auto using refs_slash). rewrite E1 in F. apply Forall_app in F. tauto. }
  apply full_inj in E2; auto; [|eapply root_segs; eauto]. subst segs. apply in_keys in I.
  destruct q as [|a [|b [|]]]; simpl in E1.
  - inversion PA; subst; auto.
  - injection E1 as <- _. pose proof (root_fun _ _ _ PA refs_part) as E. injection E as ->. apply refs_noref, I.
  - injection E1 as <- <- _. pose proof (root_fun _ _ _ PA (target_part id x R)) as E. subst x. destruct (RE _ _ R) as [_ [e [_ [_ [_ [_ [E NR]]]]]]].
    injection E as ->. auto.
  - discriminate.
Qed.
Lemma mentioned_dec m : mentioned m \/ ~ mentioned m.
Proof.
  destruct (graph_total str_key str_nat 2 root root_wf root_pointers root_rooted root_deep) as [g G].
  destruct (graph_ok str_key str_nat 2 root g root_wf G) as [H _]. destruct (in_dec string_dec m (nodes g)) as [I|I]; [left|right]; rewrite <- H; auto.
Qed.

(** *** nothing depends on itself *)
Lemma dep_inv q x b : part root q x -> depends (full q) b ->
  (exists d id x', x = VDict d /\ In (RK, VStr (pointer_to id)) d /\ b = full ["_references"; id] /\ In (KStr id, x') refs)
  \/ (exists s z, b = full (q ++ [s]) /\ part x [s] z /\ part root (q ++ [s]) z).
Proof.
  intros P [D|[C M]].
  - left. destruct (pointer_target _ _ D) as [segs [d [id [x' [E [PA [I [-> [R N]]]]]]]]].
    apply full_inj in E; [|eapply root_segs; eauto..]. subst segs. exists d, id, x'. split; [eapply root_fun; eauto|]. auto.
  - right. destruct (mentioned_part _ M) as [q' [z [_ [_ [-> [PZ _]]]]]]. apply child_split in C. destruct C as [s C].
    rewrite !split_full in C by (eapply root_segs; eauto). injection C as ->. exists s, z. split; auto. split; auto.
    destruct (part_prefix _ _ _ _ PZ) as [y [Y1 Y2]]. rewrite (root_fun _ _ _ P Y1). auto.
Qed.
Definition child (a b : val) : Prop := (exists l, seq_of b = Some l /\ In a l) \/ (exists d k, b = VDict d /\ In (k, a) d).
Lemma child_wf : well_founded child.
Proof.
  intros b. induction b using val_ind'; constructor; intros a [[l' [S I]]|[d' [k [E I]]]]; try discriminate; rewrite Forall_forall in H.
  - simpl in S. injection S as <-. auto.
  - simpl in S. injection S as <-. auto.
  - injection E as <-. apply (H _ I).
Qed.
Definition is_pointer (x : val) : Prop := exists d, x = VDict d /\ In RK (map fst d).
Lemma denotes_down x s t z : denotes x s -> part x [t] z -> ~ is_pointer x /\ exists s', child s' s /\ denotes z s'.
Proof.
  intros D P. inversion P as [|d k z' segs x' N I Q|v l i z' segs x' S N Q]; subst; inversion Q; subst.
  - split; [intros [d' [E R]]; injection E as <-; auto|].
    destruct (denotes_cases _ _ D) as [[d' [id' [x' [E [R _]]]]]|[[L _]|[[l [m [E _]]]|[d' [e [E [-> [ND [_ [K H]]]]]]]]]]; try discriminate.
    + exfalso. injection E as ->. apply N. eapply in_keys; eauto.
    + destruct L.
    + injection E as <-. destruct (keys_in k e) as [s' S']; [apply K; eapply in_keys; eauto|]. exists s'. split; eauto. right. eauto.
  - split; [intros [d' [-> R]]; discriminate|].
    destruct (denotes_cases _ _ D) as [[d' [id' [x' [-> _]]]]|[[L _]|[[l' [m [-> [-> F]]]]|[d' [e [-> _]]]]]]; try discriminate.
    + destruct x; try discriminate; destruct L.
    + simpl in S. injection S as ->. apply nth_error_In in N. destruct (Forall2_in_left _ _ _ _ F N) as [s' [S1 S2]]. exists s'. split; auto. left.
      exists m. auto.
Qed.
Notation ready := (Acc (fun b a => depends a b)).
Lemma ready_denoting s : forall q x, part root q x -> denotes x s -> ready (full q).
Proof.
  induction s as [s IH] using (well_founded_ind child_wf).
  assert (NP : forall q x, part root q x -> denotes x s -> ~ is_pointer x -> ready (full q)).
  { intros q x P D N. constructor. intros b B. destruct (dep_inv q x b P B) as [[d [id [x' [-> [I _]]]]]|[t [z [-> [PX PZ]]]]].
    - exfalso. apply N. exists d. split; auto. eapply in_keys; eauto.
    - destruct (denotes_down x s t z D PX) as [_ [s' [C DZ]]]. eapply IH; eauto. }
  intros q x P D. destruct (denotes_cases _ _ D) as [[d [id [x' [-> [I [R D']]]]]]|H].
  - constructor. intros b B. destruct (dep_inv q _ b P B) as [[d' [id' [x'' [E [I' [-> R']]]]]]|[t [z [-> [PX PZ]]]]].
    + injection E as <-. pose proof (part_wf _ _ _ _ _ P root_wf) as W. inversion W as [| | | | | | |? ND _| |]; subst.
      pose proof (keys_fun _ _ _ _ ND I I') as E. injection E as E. assert (id = id') by exact E. subst id'.
      destruct (target_dict _ _ _ R D') as [e [_ [-> [_ [_ [NR _]]]]]].
      apply (NP ["_references"; id] (VDict e)); [eapply target_part; eauto|eauto|intros [e2 [E2 J]]; injection E2 as <-; auto].
    + exfalso. apply (proj1 (denotes_down _ _ _ _ D PX)). exists d. split; auto. eapply in_keys; eauto.
  - eapply NP; eauto. intros [d [-> J]]. destruct H as [[L _]|[[l [m [E _]]]|[d' [e [E [_ [_ [NR _]]]]]]]]; [destruct L|discriminate|].
    injection E as <-. auto.
Qed.
Lemma ready_part q x : part root q x -> ready (full q).
Proof.
  assert (KN : forall q x, part root q x -> known x -> ready (full q)).
  { clear q x. intros q x P [[y [s [_ [_ D]]]]|[t ->]]; [eapply ready_denoting; eauto|].
    constructor. intros b B. destruct (dep_inv q _ b P B) as [[d [id [x' [E _]]]]|[s [z [_ [PX _]]]]]; [discriminate|inversion PX; discriminate]. }
  assert (RR : ready (full ["_references"])).
  { constructor. intros b B. destruct (dep_inv _ _ b refs_part B) as [[d [id [x' [E [I _]]]]]|[s [z [-> [PX PZ]]]]].
    - injection E as <-. exfalso. apply refs_noref. eapply in_keys; eauto.
    - eapply KN; eauto. left. apply (RD (KStr s)). eapply refs_at; eauto. }
  intros P. destruct (root_part q x P) as [[-> ->]|[[-> ->]|K]]; auto; [|eapply KN; eauto].
  constructor. intros b B. destruct (dep_inv _ _ b P B) as [[d [id [x' [E [I _]]]]]|[s [z [-> [PX PZ]]]]].
  - injection E as <-. exfalso. apply ONR. eapply in_keys; eauto.
  - destruct (root_part _ _ PZ) as [[E _]|[[E ->]|K]]; [discriminate|rewrite E; auto|eapply KN; eauto].
Qed.
Lemma ready_once a : ready a -> ~ clos_trans _ depends a a.
Proof.
  induction 1 as [a _ IH]. intros C. apply clos_trans_t1n_iff in C. inversion C as [b H|c b H C']; subst.
  - apply (IH a H). apply clos_trans_t1n_iff. auto.
  - apply (IH c H). apply clos_trans_t1n_iff in C'. eapply t_trans; [exact C'|apply t_step; auto].
Qed.
Lemma root_acyclic : ~ (exists x, clos_trans _ depends x x).
Proof.
  intros [a C]. destruct (clos_first _ _ _ C) as [b B]. destruct (depends_mentioned _ _ _ _ _ B) as [M _].
  destruct (mentioned_part _ M) as [q [x [_ [_ [-> [P _]]]]]]. eapply ready_once; eauto. eapply ready_part; eauto.
Qed.

(** *** everything describes something *)
Lemma through_pointer (y s : val) :
  (forall x p a, ~ is_pointer x -> denotes x s -> exists u, describes p a x u /\ recovered y u) ->
  forall x p a, denotes x s -> exists u, describes p a x u /\ recovered y u.
Proof.
  intros H x p a D. destruct (denotes_cases _ _ D) as [[d [id [x' [-> [I [R D']]]]]]|C].
  - destruct (target_dict _ _ _ R D') as [e [_ [-> [_ [_ [NR _]]]]]].
    destruct (H (VDict e) ["_references"; id] false) as [u [U1 U2]]; auto; [intros [d' [E J]]; injection E as <-; auto|].
    exists u. split; auto. eapply de_ref; [rewrite <- pointer_to_full; exact I|eapply target_part; eauto|exact U1].
  - apply H; auto. intros [d [-> J]]. destruct C as [[L _]|[[l [m [E _]]]|[d' [e [E [_ [_ [NR _]]]]]]]]; [destruct L|discriminate|].
    injection E as <-. auto.
Qed.
Lemma object_described c d dx n p a : good (VObj c d) -> NoDup (map fst dx) -> ~ In RK (map fst dx) -> In (OC, VStr c) dx -> In (NM, VStr n) d ->
  (forall s, In s (arguments c) -> (In (KStr s) (map fst dx) <-> s = "name" \/ In (KStr s) (map fst d) /\ serialised c (KStr s))) ->
  (forall s x, In s (arguments c) -> In (KStr s, x) dx -> (s = "name" /\ x = VStr n)
     \/ exists y, In (KStr s, y) d /\ serialised c (KStr s) /\ forall p a, exists u, describes p a x u /\ recovered y u) ->
  exists u, describes p a (VDict dx) u /\ recovered (VObj c d) u.
Proof.
  intros G ND NR IO IN KA CH. pose proof G as [W [GK P]]. pose proof (everywhere_here _ _ P) as PH. destruct PH as [FC [_ [_ [NA [_ RB]]]]].
  pose proof (wf_obj_nodup _ _ W) as NDD.
  assert (CN : class_named n = Ok None) by exact (everywhere_here _ _ (everywhere_obj _ _ _ _ _ P IN)).
  set (keep := fun k => existsb (key_eqb k) (map KStr (arguments c))).
  assert (KP : forall k, keep k = true <-> exists s, k = KStr s /\ In s (arguments c)).
  { intros k. unfold keep. rewrite existsb_exists. split.
    - intros [k' [I E]]. apply key_eqb_eq in E. subst k'. apply in_map_iff in I. destruct I as [s [<- I]]. eauto.
    - intros [s [-> I]]. exists (KStr s). split; [apply in_map; auto|apply key_eqb_refl]. }
  destruct (Forall2_exists (fun kx ku : key * val => fst kx = fst ku /\ exists s y, fst kx = KStr s /\ In (KStr s, y) d
              /\ describes (p ++ [str_key (fst kx)]) (annotated tuple_annotated c (fst kx)) (snd kx) (snd ku) /\ recovered y (snd ku))
              (filter (fun kx => keep (fst kx)) dx)) as [kw KW].
  { intros [k x] I. apply filter_In in I. destruct I as [I K]. simpl in K. apply KP in K. destruct K as [s [-> K]].
    destruct (CH s x K I) as [[-> ->]|[y [Y1 [Y2 Y3]]]].
    - exists (NM, VStr n). split; auto. exists "name", (VStr n). split; auto. split; auto. split; [exact (de_str _ _ _ _ _ _ _ _ _ _ n None CN)|constructor; discriminate || reflexivity].
    - destruct (Y3 (p ++ [str_key (KStr s)]) (annotated tuple_annotated c (KStr s))) as [u [U1 U2]]. exists (KStr s, u). split; auto.
      exists s, y. auto. }
  assert (KF : map fst (filter (fun kx : key * val => keep (fst kx)) dx) = filter keep (map fst dx)).
  { clear. induction dx as [|[k x] dx IH]; simpl; auto. destruct (keep k); simpl; congruence. }
  assert (KK : map fst kw = filter keep (map fst dx)).
  { rewrite <- KF. clear -KW. induction KW as [|x y l m [H1 _]]; simpl; congruence. }
  destruct (RB kw) as [d' [C [ND' D']]].
  - rewrite KK. apply NoDup_filter. auto.
  - intros s. rewrite KK, filter_In, KP. split.
    + intros [I [s' [E A]]]. injection E as <-. split; auto. apply KA in I; auto. tauto.
    + intros [A I]. split; eauto. apply KA; auto. tauto.
  - exists (VObj c d'). split.
    + eapply de_obj; eauto. intros k y z Y Z. destruct (Forall2_in_right _ _ _ _ KW Z) as [[k' x] [X1 [X2 [s [y0 [_ [_ [X3 _]]]]]]]].
      cbn [fst snd] in *. subst k'. apply filter_In in X1. rewrite (keys_fun _ _ _ _ ND Y (proj1 X1)). auto.
    + assert (EV : forall s, In (KStr s) (map fst d) -> serialised c (KStr s) -> In s (arguments c) -> exists y u, In (KStr s, y) d /\ In (KStr s, u) d' /\ recovered y u).
      { intros s I SK A. assert (IX : In (KStr s) (map fst dx)) by (apply KA; auto). apply keys_in in IX. destruct IX as [x IX].
        destruct (Forall2_in_left _ _ _ (KStr s, x) KW) as [[k u] [U1 [U2 [s' [y [U3 [U4 [_ U5]]]]]]]].
        - apply filter_In. split; [exact IX|]. apply (proj2 (KP (KStr s))). eauto.
        - cbn [fst snd] in *. subst k. injection U3 as <-. exists y, u. auto. }
      constructor; auto.
      * intros s I SK A. destruct (EV s I SK A) as [y [u [_ [U _]]]]. eapply in_keys; eauto.
      * intros s x y I SK A Y. destruct (EV s (in_keys _ _ _ I) SK A) as [x' [u [X [U R]]]].
        rewrite (keys_fun _ _ _ _ NDD I X), (keys_fun _ _ _ _ ND' Y U). auto.
Qed.
Lemma sequence_described x l l' p a : seq_of x = Some l -> length l = length l' ->
  (forall i y z, nth_error l i = Some y -> nth_error l' i = Some z -> describes (p ++ [str_nat i]) false y z) ->
  exists u, describes p a x u /\ seq_of u = Some l'.
Proof.
  intros S L H. destruct a.
  - destruct (mentioned_dec (full p)) as [M|M].
    + exists (VList l'). split; auto. eapply de_list; eauto.
    + exists (VTuple l'). split; auto. eapply de_tuple; eauto.
  - exists (VList l'). split; auto. eapply de_list; eauto.
Qed.
Lemma list_described l x s0 v p : seq_of v = Some l ->
  Forall (fun y => good y -> forall s, serialize y = Ok s -> forall x p a, denotes x s -> exists u, describes p a x u /\ recovered y u) l ->
  good v -> serialize v = Ok s0 -> ~ is_pointer x -> denotes x s0 ->
  exists lx l', x = VList lx /\ length lx = length l'
   /\ (forall i y z, nth_error lx i = Some y -> nth_error l' i = Some z -> describes (p ++ [str_nat i]) false y z) /\ Forall2 recovered l l'.
Proof.
  intros Q H G S NP D. destruct (ser_seq v l s0 Q S) as [r [-> F]].
  destruct (denotes_cases _ _ D) as [[dx [id [x' [-> [I _]]]]]|[[L <-]|[[lx [m [-> [E FD]]]]|[dx [e' [-> [E _]]]]]]]; try discriminate.
  - exfalso. apply NP. exists dx. split; auto. eapply in_keys; eauto.
  - destruct L.
  - injection E as <-. exists lx. assert (GL : forall y, In y l -> good y) by (intros y I; eapply good_seq; eauto).
    assert (EX : forall j, exists l', length lx = length l'
       /\ (forall i y z, nth_error lx i = Some y -> nth_error l' i = Some z -> describes (p ++ [str_nat (j + i)]) false y z) /\ Forall2 recovered l l').
    { clear - H F FD GL. revert l H F GL. induction FD as [|x0 s0 lx r D FD IH]; intros l H F GL j; inversion F as [|y0 ? l0 ? SY F']; subst.
      - exists []. split; auto. split; [intros [|i] y z E; discriminate|constructor].
      - inversion H as [|? ? HY H']; subst. destruct (HY (GL _ (or_introl eq_refl)) _ SY x0 (p ++ [str_nat j]) false D) as [u [U1 U2]].
        destruct (IH l0 H' F') with (j := S j) as [l' [L [E1 E2]]]; [intros; apply GL; right; auto|].
        exists (u :: l'). split; [simpl; auto|]. split; [|constructor; auto].
        intros [|i] y z Y Z; simpl in Y, Z; [injection Y as <-; injection Z as <-; rewrite Nat.add_0_r; auto|].
        rewrite Nat.add_succ_r. eapply E1; eauto. }
    destruct (EX 0) as [l' [L [E1 E2]]]. exists l'. auto.
Qed.
Ltac leaf_case S D x :=
  simpl in S; match type of S with (if ?b then _ else _) = _ => destruct b; [|discriminate] end; injection S as <-;
  match goal with |- exists u, _ /\ recovered ?v u =>
    assert (E : x = v) by (destruct (denotes_cases _ _ D) as [[? [? [? [_ [_ [R D']]]]]]|[[_ E]|[[? [? [_ [E _]]]]|[? [? [_ [E _]]]]]]]; try discriminate; auto;
                           destruct (target_dict _ _ _ R D') as [? [? [_ [E _]]]]; discriminate);
    subst x; exists v; split; [apply de_leaf; discriminate || reflexivity|constructor; discriminate || reflexivity]
  end.
Lemma all_described y : good y -> forall s, serialize y = Ok s -> forall x p a, denotes x s -> exists u, describes p a x u /\ recovered y u.
Proof.
  induction y using val_ind'; intros G s0 S; apply through_pointer; intros x p a NP D.
  - leaf_case S D x.
  - leaf_case S D x.
  - leaf_case S D x.
  - leaf_case S D x.
  - simpl in S. destruct (jsonable (VStr s)); [|discriminate]. injection S as <-. apply denotes_str in D. subst x.
    destruct G as [_ [_ P]]. apply everywhere_here in P. simpl in P. exists (VStr s).
    split; [exact (de_str _ _ _ _ _ _ _ _ p a s None P)|constructor; discriminate || reflexivity].
  - destruct (list_described l x s0 (VList l) p eq_refl) as [lx [l' [X [L [H1 H2]]]]]; auto.
    destruct (sequence_described x lx l' p a) as [u [U1 U2]]; [rewrite X; reflexivity|auto|auto|]. exists u. split; auto. eapply re_seq; eauto. reflexivity.
  - destruct (list_described l x s0 (VTuple l) p eq_refl) as [lx [l' [X [L [H1 H2]]]]]; auto.
    destruct (sequence_described x lx l' p a) as [u [U1 U2]]; [rewrite X; reflexivity|auto|auto|]. exists u. split; auto. eapply re_seq; eauto. reflexivity.
  - destruct (ser_dict d s0 G S) as [e [-> [KE CE]]]. destruct G as [W [GK P]]. pose proof (wf_dict_nodup _ W) as NDD.
    pose proof (everywhere_here _ _ P) as [NR NO]. rewrite Forall_forall in H.
    destruct (denotes_cases _ _ D) as [[dx [id [x' [-> [I _]]]]]|[[L <-]|[[l [m [_ [E _]]]]|[dx [e' [-> [E [ND [NRX [K C]]]]]]]]]]; try discriminate.
    + exfalso. apply NP. exists dx. split; auto. eapply in_keys; eauto.
    + destruct L.
    + injection E as <-. rewrite KE in K.
      destruct (Forall2_exists (fun kx ku : key * val => fst kx = fst ku /\ exists y, In (fst kx, y) d
                  /\ describes (p ++ [str_key (fst kx)]) false (snd kx) (snd ku) /\ recovered y (snd ku)) dx) as [d' F].
      { intros [k x] I. destruct (keys_in k e) as [z Z]; [rewrite KE; apply K; eapply in_keys; eauto|]. destruct (CE k z Z) as [y [Y SY]].
        destruct (H _ Y) with (s := z) (x := x) (p := p ++ [str_key k]) (a := false) as [u [U1 U2]]; eauto; [eapply good_dict; eauto; repeat split; auto|].
        exists (k, u). split; auto. exists y. auto. }
      assert (KK : map fst d' = map fst dx) by (clear -F; induction F as [|x y l m [H1 _]]; simpl; congruence).
      exists (VDict d'). split.
      * apply de_dict; auto; [rewrite K; auto|]. intros k y z Y Z. destruct (Forall2_in_right _ _ _ _ F Z) as [[k' x] [X1 [X2 [y0 [_ [X3 _]]]]]].
        cbn [fst snd] in *. subst k'. rewrite (keys_fun _ _ _ _ ND Y X1). auto.
      * constructor; [congruence|rewrite KK; apply K|]. intros k x y X Y. destruct (Forall2_in_right _ _ _ _ F Y) as [[k' x'] [X1 [X2 [y0 [X3 [_ X4]]]]]].
        cbn [fst snd] in *. subst k'. rewrite (keys_fun _ _ _ _ NDD X X3). auto.
  - destruct (ser_obj c d s0 G S) as [e [n [-> [NDE [IO [IN [IE [KE CE]]]]]]]]. rewrite Forall_forall in H.
    pose proof G as [_ [_ P]]. pose proof (everywhere_here _ _ P) as [_ [_ [_ [NA _]]]].
    destruct (denotes_cases _ _ D) as [[dx [id [x' [-> [I _]]]]]|[[L <-]|[[l [m [_ [E _]]]]|[dx [e' [-> [E [ND [NRX [K C]]]]]]]]]]; try discriminate.
    + exfalso. apply NP. exists dx. split; auto. eapply in_keys; eauto.
    + destruct L.
    + injection E as <-. apply object_described with (n := n); auto.
      * destruct (keys_in OC dx) as [z Z]; [apply K, KE; auto|]. rewrite <- (denotes_str z c (C _ _ _ Z IO)). auto.
      * intros s A. rewrite K, KE. split; [intros [E|[E|E]]; [injection E as ->; contradiction|injection E; auto|auto]|intros [->|E]; auto].
      * intros s x A I. destruct (keys_in (KStr s) e) as [z Z]; [apply K; eapply in_keys; eauto|]. destruct (string_dec s "name") as [->|NS].
        -- left. split; auto. apply denotes_str. eauto.
        -- right. destruct (CE _ _ Z) as [y [Y [SK SY]]]; [intros E; injection E as ->; contradiction|congruence|]. exists y. split; auto. split; auto.
           intros p' a'. apply (H _ Y) with (s := z); eauto. eapply good_obj; eauto.
  - simpl in S. injection S as <-. apply denotes_str in D. subst x. destruct G as [_ [_ P]]. apply everywhere_here in P. simpl in P.
    exists (VClass n b). split; [exact (de_str _ _ _ _ _ _ _ _ p a _ (Some (VClass n b)) P)|constructor; discriminate || reflexivity].
Qed.
Lemma mentioned_described m : mentioned m -> m <> "#" -> exists q x u, m = full q /\ part root q x /\ describes q false x u.
Proof.
  intros M N. destruct (mentioned_part m M) as [q [x [r [d [-> [P Q]]]]]]. exists q, x.
  assert (KD : forall p x y s, good y -> serialize y = Ok s -> denotes x s -> exists u, describes p false x u).
  { intros p x0 y s G S D. destruct (all_described y G s S x0 p false D) as [u [U _]]. eauto. }
  destruct (root_part q x P) as [[-> _]|[[-> ->]|[[y [s [G [S D]]]]|[t ->]]]].
  - exfalso. apply N. reflexivity.
  - destruct (Forall2_exists (fun kx ku : key * val => fst kx = fst ku /\ describes (["_references"] ++ [str_key (fst kx)]) false (snd kx) (snd ku)) refs) as [d' F].
    { intros [k x] I. destruct (RD k x I) as [y [s [G [S D]]]]. destruct (KD (["_references"] ++ [str_key k]) x y s G S D) as [u U]. exists (k, u). auto. }
    exists (VDict d'). split; auto. split; auto. apply de_dict.
    + apply refs_noref.
    + intros I. apply keys_in in I. destruct I as [x I]. destruct (RE _ _ I) as [id [e [E [_ [_ [D _]]]]]]. congruence.
    + clear -F. induction F as [|x y l m [H1 _]]; simpl; congruence.
    + intros k y z Y Z. destruct (Forall2_in_right _ _ _ _ F Z) as [[k' x] [X1 [X2 X3]]]. cbn [fst snd] in *. subst k'.
      rewrite (keys_fun _ _ _ _ refs_nodup' Y X1). auto.
  - destruct (KD q x y s G S D) as [u U]. exists u. auto.
  - inversion Q; discriminate.
Qed.
Variable sort : list string -> list (string * string) -> option (list string).
Hypothesis SORT : sorts sort.
Notation dict_to_object := (dict_to_object str_key str_nat int_of isdigit sort class_named find_class arguments tuple_annotated construct).
Lemma document_read n u : 2 <= n -> describes [] false root u -> dict_to_object n root = Ok u.
Proof.
  intros L D. apply (dict_to_object_ok str_key str_nat int_of isdigit str_key_str str_nat_slash int_str_nat class_named find_class arguments tuple_annotated construct
                       root root_wf root_named sort SORT root_pointers root_rooted root_direct root_acyclic mentioned_described n u); auto.
  intros p t P. pose proof (root_deep p t P). lia.
Qed.
End Doc.
Lemma good_occurs x v : occurs non_serializable x v -> good v -> good x.
Proof.
  induction 1 as [|v l y S I O IH|d k y I O IH|c d k y I K O IH]; intros G; auto; apply IH.
  - eapply good_seq; eauto.
  - eapply good_dict; eauto.
  - eapply good_obj; eauto.
Qed.

Section Whole.
Variable standalone : string -> bool.
Variable id_name : nat -> string.
Variable same : val -> val -> bool.
Variable sort : list string -> list (string * string) -> option (list string).
Hypothesis str_nat_good : forall n, good_name (str_nat n).
Hypothesis id_name_good : forall i, good_name (id_name i).
Hypothesis id_name_inj : forall i j, id_name i = id_name j -> i = j.
Hypothesis id_name_class : forall i, id_name i <> "object_class".
Hypothesis SORT : sorts sort.
Notation to_dict := (to_dict non_serializable jsonable annotation_of_class standalone str_key str_nat id_name same int_of isdigit).
Notation occurs := (occurs non_serializable).
Notation dict_to_object := (dict_to_object str_key str_nat int_of isdigit sort class_named find_class arguments tuple_annotated construct).
Notation RF := (KStr "_references").

Lemma whole_trip n m c d p : 2 <= n -> 2 <= m -> wf_val (VObj c d) -> good_keys (VObj c d) -> portable (VObj c d) -> ~ In "_references" (arguments c) ->
  (forall s, In (KStr s) (map fst d) -> serialised c (KStr s) -> attribute_name s) ->
  (forall x y s t, occurs x (VObj c d) -> occurs y (VObj c d) -> same x y = true -> serialize x = Ok s -> serialize y = Ok t -> alike s t) ->
  serialize (VObj c d) = Ok (VDict p) ->
  exists o u, to_dict n c d = Ok (VDict o) /\ dict_to_object m (VDict o) = Ok u /\ recovered (VObj c d) u.
Proof.
  intros L1 L2 W GK P NA AN AL S. destruct n as [|[|n]]; try lia.
  destruct (to_dict_ok non_serializable jsonable annotation_of_class standalone str_key str_nat id_name same int_of isdigit str_key_str str_nat_good int_str_nat
              id_name_good id_name_inj True (fun x => occurs x (VObj c d)) (fun _ => AL) n c d p W GK AN (fun _ x H => H) S)
    as [o [refs [T [ND [IR [NDG [KO [DE [JS [RS RD]]]]]]]]]]. specialize (DE Logic.I). specialize (RD Logic.I).
  assert (G : good (VObj c d)) by (split; auto).
  destruct (ser_obj c d _ G S)
    as [p' [nm [E [NDP [IO [IN [IE [KP CP]]]]]]]]. injection E as <-.
  assert (PN : forall k, In k (map fst p) -> exists s, k = KStr s /\ good_name s /\ attribute_name s).
  { intros k K. apply KP in K. destruct K as [->|[->|[K SK]]].
    - exists "object_class". split; auto. split; [split; [unfold no_slash; simpl; intuition discriminate|discriminate]|]. repeat eexists; discriminate.
    - exists "name". split; auto. split; [split; [unfold no_slash; simpl; intuition discriminate|discriminate]|]. repeat eexists; discriminate.
    - pose proof (everywhere_here _ _ GK) as [GH _]. destruct (GH k K) as [s [-> [A _]]]. exists s. auto. }
  assert (RE : forall k x, In (k, x) refs -> exists id e, k = KStr id /\ no_slash id /\ id <> "$ref" /\ id <> "object_class" /\ x = VDict e /\ ~ In (KStr "$ref") (map fst e)).
  { intros k x I. destruct (RS k x I) as [i [e [-> [-> N]]]]. exists (id_name i), e. split; auto. split; [apply id_name_good|]. split; [apply id_name_good|]. auto. }
  assert (RD' : forall k x, In (k, x) refs -> exists y s, good y /\ serialize y = Ok s /\ denotes refs x s).
  { intros k x I. destruct (RD k x I) as [c' [d' [s [O [S' D]]]]]. exists (VObj c' d'), s. split; auto.
    eapply good_occurs with (v := VObj c d); eauto. }
  assert (ONR : ~ In (KStr "$ref") (map fst o)).
  { intros K. apply KO in K. destruct K as [K|K]; [discriminate|]. apply PN in K. destruct K as [s [K [[_ A] _]]]. congruence. }
  assert (OK : forall s, In (KStr s) (map fst o) -> exists a r, s = String a r /\ a <> "#"%char /\ a <> "/"%char).
  { intros s K. apply KO in K. destruct K as [K|K].
    - injection K as ->. repeat eexists; discriminate.
    - apply PN in K. destruct K as [s' [K [_ A]]]. injection K as <-. exact A. }
  assert (ON : forall k, In k (map fst o) -> exists s, k = KStr s /\ no_slash s).
  { intros k K. apply KO in K. destruct K as [->|K].
    - exists "_references". split; auto. unfold no_slash; simpl; intuition discriminate.
    - apply PN in K. destruct K as [s [-> [[A _] _]]]. eauto. }
  assert (OD : forall k x, In (k, x) o -> k <> RF -> (exists y s, good y /\ serialize y = Ok s /\ denotes refs x s) \/ exists t, x = VStr t).
  { intros k x I D. destruct (keys_in k p) as [y Y]; [assert (K : In k (map fst o)) by (eapply in_keys; eauto); apply KO in K; tauto|].
    destruct (ser_of_dict (VObj c d) p G S) as [_ C].
    destruct (C k y Y) as [[z [Z1 Z2]]|[t ->]]; [left; exists z, y; split; auto; split; auto; eapply DE; eauto|].
    right. exists t. eapply denotes_str; eauto. }
  destruct (object_described o c d o nm [] false)
    as [u [U1 U2]]; auto.
  - destruct (keys_in (KStr "object_class") o) as [z Z]; [apply KO; right; apply KP; auto|].
    rewrite <- (denotes_str refs RE z c (DE _ _ _ Z IO)). auto.
  - intros s A. rewrite KO, KP. split.
    + intros [E|[E|[E|E]]]; [injection E as ->; contradiction| |injection E; auto|auto].
      injection E as ->. exfalso. pose proof (everywhere_here _ _ P) as [_ [_ [_ [NO _]]]]. auto.
    + intros [->|E]; auto.
  - intros s x A I. destruct (string_dec s "name") as [->|NS].
    + left. split; auto. eapply denotes_str; eauto.
    + right. assert (K : In (KStr s) (map fst p)).
      { assert (K : In (KStr s) (map fst o)) by (eapply in_keys; eauto). apply KO in K. destruct K as [K|K]; auto. injection K as ->. contradiction. }
      destruct (keys_in _ _ K) as [z Z]. destruct (CP _ _ Z) as [y [Y [SK SY]]].
      { intros E. injection E as ->. pose proof (everywhere_here _ _ P) as [_ [_ [_ [NO _]]]]. auto. }
      { congruence. }
      exists y. split; auto. split; auto. intros q a.
      eapply (all_described o refs) with (s := z); eauto.
      * eapply good_obj; eauto.
  - exists o, u. split; auto. split; auto.
    eapply (document_read o refs); eauto.
Qed.
End Whole.
End T.

From Coq Require Import Bool Arith List Lia.
From Verif Require Import Base BaseProofs ExecModel ExecSpec ApartModel ApartSpec.
Import ListNotations.

Lemma node_eqb_iff : forall x y, node_eqb x y = true <-> x = y.
Proof.
  intros [u|m] [v|n]; cbn; try (split; [discriminate|intros [=]]);
    rewrite Nat.eqb_eq; split; [intros ->|intros [=]|intros ->|intros [=]]; auto.
Qed.
Lemma node_memb x l : memb node_eqb x l = true <-> In x l.
Proof. apply memb_In, node_eqb_iff. Qed.
Lemma node_memb_false x l : memb node_eqb x l = false <-> ~ In x l.
Proof. apply memb_In_false, node_eqb_iff. Qed.

Lemma in_numbered {A} (l : list A) : forall k i x,
  In (i, x) (combine (seq k (length l)) l) <-> (k <= i /\ nth_error l (i - k) = Some x).
Proof.
  induction l as [|y l IH]; intros k i x; cbn [length seq combine In].
  - split; [intros []|]. intros [_ H]. destruct (i - k); discriminate.
  - rewrite IH. split.
    + intros [E|[L N]]; [injection E as <- <-; split; [lia|]; rewrite Nat.sub_diag; reflexivity|].
      split; [lia|]. replace (i - k) with (S (i - S k)) by lia. exact N.
    + intros [L N]. destruct (Nat.eq_dec i k) as [->|D].
      * rewrite Nat.sub_diag in N. injection N as <-. left. reflexivity.
      * right. split; [lia|]. replace (i - k) with (S (i - S k)) in N by lia. exact N.
Qed.

Lemma in_enum {A} (l : list A) i x : In (i, x) (enumerate l) <-> nth_error l i = Some x.
Proof.
  unfold enumerate. rewrite in_numbered, Nat.sub_0_r. split; [tauto|]. intros H. split; [lia|exact H].
Qed.

Inductive joined (w : workflow) : node -> node -> Prop :=
| j_in n b v : nth_error (blocks w) n = Some b -> In v (b_in b) -> joined w (NVar v) (NBlock n)
| j_out n b v : nth_error (blocks w) n = Some b -> In v (b_out b) -> joined w (NBlock n) (NVar v)
| j_pipe s t : In (s, t) (pipes w) -> joined w (NVar s) (NVar t).

Lemma edges_joined w x y : In (x, y) (edges w) <-> joined w x y.
Proof.
  unfold edges. rewrite in_app_iff, in_flat_map, in_map_iff. split.
  - intros [([n b] & I & H)|([s t] & E & I)].
    + apply in_enum in I. unfold block_edges in H. rewrite in_app_iff, !in_map_iff in H.
      destruct H as [(v & E & Iv)|(v & E & Iv)]; injection E as <- <-; econstructor; eauto.
    + injection E as <- <-. constructor. exact I.
  - intros [n b v N I|n b v N I|s t I].
    + left. exists (n, b). split; [apply in_enum; exact N|]. unfold block_edges.
      apply in_app_iff. left. apply in_map_iff. exists v. auto.
    + left. exists (n, b). split; [apply in_enum; exact N|]. unfold block_edges.
      apply in_app_iff. right. apply in_map_iff. exists v. auto.
    + right. exists (s, t). auto.
Qed.

(** Paths by a list of edges, last step first. *)
Inductive up (es : list (node * node)) (o : node) : node -> Prop :=
| up_here : up es o o
| up_step x y : In (x, y) es -> up es o y -> up es o x.

Lemma in_fresh es known x : In x (fresh es known) <-> ~ In x known /\ exists y, In (x, y) es /\ In y known.
Proof.
  unfold fresh. rewrite in_map_iff. split.
  - intros ([a b] & <- & H). apply filter_In in H as [I H]. apply andb_true_iff in H as [H1 H2].
    apply node_memb in H1. apply negb_true_iff, node_memb_false in H2. split; [exact H2|].
    exists b. auto.
  - intros [N (y & I & K)]. exists (x, y). split; [reflexivity|]. apply filter_In. split; [exact I|].
    apply andb_true_iff. split; [apply node_memb; exact K | apply negb_true_iff, node_memb_false; exact N].
Qed.

Definition todo (es : list (node * node)) (known : list node) : nat :=
  length (filter (fun e => negb (memb node_eqb (fst e) known)) es).

Lemma filter_less {A} (f g : A -> bool) l :
  (forall x, In x l -> g x = true -> f x = true) ->
  length (filter g l) <= length (filter f l) /\
  ((exists x, In x l /\ f x = true /\ g x = false) -> length (filter g l) < length (filter f l)).
Proof.
  induction l as [|a l IH]; intros H; cbn [filter].
  - split; [lia|]. intros (x & [] & _).
  - destruct IH as [L S]; [intros x I; apply H; right; exact I|].
    assert (Ha := H a (or_introl eq_refl)).
    destruct (g a) eqn:G, (f a) eqn:F; try (specialize (Ha eq_refl); discriminate); cbn [length].
    + split; [lia|]. intros (x & [<-|I] & Fx & Gx); [congruence|].
      assert (length (filter g l) < length (filter f l)) by (apply S; eauto). lia.
    + split; [lia|]. intros _. lia.
    + split; [lia|]. intros (x & [<-|I] & Fx & Gx); [congruence|]. apply S. eauto.
Qed.

Lemma todo_less es known x :
  In x (fresh es known) -> todo es (known ++ fresh es known) < todo es known.
Proof.
  intros I. unfold todo. apply filter_less.
  - intros e _ H. apply negb_true_iff, node_memb_false in H. apply negb_true_iff, node_memb_false.
    intros K. apply H. apply in_app_iff. auto.
  - assert (J := I). apply in_fresh in I as [N (y & E & K)]. exists (x, y). split; [exact E|]. cbn [fst]. split.
    + apply negb_true_iff, node_memb_false. exact N.
    + apply negb_false_iff, node_memb. apply in_app_iff. right. exact J.
Qed.

Lemma search_incl es : forall n known x, In x known -> In x (search n es known).
Proof.
  induction n as [|n IH]; intros known x I; [exact I|]. cbn [search].
  destruct (fresh es known) as [|a l] eqn:E; [exact I|]. apply IH. apply in_app_iff. auto.
Qed.

Lemma search_closed es : forall n known, todo es known < n ->
  forall x y, In (x, y) es -> In y (search n es known) -> In x (search n es known).
Proof.
  induction n as [|n IH]; intros known L x y E I; [lia|]. cbn [search] in *.
  destruct (fresh es known) as [|a l] eqn:F.
  - destruct (in_dec (fun a b : node => ltac:(decide equality; apply Nat.eq_dec)) x known) as [K|K]; [exact K|].
    exfalso. assert (H : In x (fresh es known)) by (apply in_fresh; split; [exact K|]; exists y; auto).
    rewrite F in H. destruct H.
  - rewrite <- F in *. eapply IH; eauto.
    assert (todo es (known ++ fresh es known) < todo es known).
    { apply todo_less with (x := a). rewrite F. left. reflexivity. }
    lia.
Qed.

Lemma search_sound es o : forall n known, (forall x, In x known -> up es o x) ->
  forall x, In x (search n es known) -> up es o x.
Proof.
  induction n as [|n IH]; intros known K x I; [exact (K x I)|]. cbn [search] in I.
  destruct (fresh es known) as [|a l] eqn:F; [exact (K x I)|]. rewrite <- F in I.
  eapply IH; [|exact I]. intros z Iz. apply in_app_iff in Iz as [Iz|Iz]; [exact (K z Iz)|].
  apply in_fresh in Iz as [_ (y & E & Ky)]. econstructor; eauto.
Qed.

Lemma search_up es o x : In x (search (S (length es)) es [o]) <-> up es o x.
Proof.
  split.
  - apply search_sound. intros z [<-|[]]. constructor.
  - intros U. assert (L : todo es [o] < S (length es)).
    { unfold todo.
      assert (H : forall (f : node * node -> bool) l, length (filter f l) <= length l).
      { intros f l. induction l as [|a l IH]; cbn [filter length]; [lia|].
        destruct (f a); cbn [length]; lia. }
      specialize (H (fun e => negb (memb node_eqb (fst e) [o])) es). lia. }
    induction U as [|x y E U IH].
    + apply search_incl. left. reflexivity.
    + eapply search_closed; eauto.
Qed.

Lemma up_leads w o x : x <> o -> (up (edges w) o x <-> leads w x o).
Proof.
  assert (J : forall x y, joined w x y -> leads w x y) by (intros a b []; econstructor; eauto).
  intros N. split.
  - intros U. induction U as [|x y E U IH]; [contradiction|]. apply edges_joined, J in E.
    destruct (node_eqb y o) eqn:Q.
    + apply node_eqb_iff in Q as ->. exact E.
    + eapply l_trans; [exact E|]. apply IH. intros ->.
      assert (node_eqb o o = true) by (apply node_eqb_iff; reflexivity). congruence.
  - intros L. clear N.
    assert (G : forall x y, leads w x y -> up (edges w) o y -> up (edges w) o x).
    { intros a b H. induction H; intros U; auto;
        (eapply up_step; [apply edges_joined; econstructor; eauto | exact U]). }
    eapply G; [exact L|constructor].
Qed.

Lemma ancestors_leads w o x : In x (ancestors (edges w) o) <-> x <> o /\ leads w x o.
Proof.
  unfold ancestors. rewrite filter_In, search_up, negb_true_iff.
  assert (Q : node_eqb x o = false <-> x <> o).
  { rewrite <- not_true_iff_false, node_eqb_iff. tauto. }
  rewrite Q. split; intros [A B]; split; auto; apply (up_leads w o x); auto.
Qed.

(** *** Needed blocks *)
Lemma needed_leads w n o : output w = Some o -> needed w n -> leads w (NBlock n) (NVar o).
Proof.
  intros O H. induction H as [o' n b O' N I|m n (bm & bn & s & t & Nm & Nn & Is & It & P) H IH].
  - rewrite O in O'. injection O' as <-. econstructor; eauto.
  - eapply l_trans; [eapply l_out; eauto|]. eapply l_trans; [eapply l_pipe; eauto|].
    eapply l_trans; [eapply l_in; eauto|]. exact IH.
Qed.

Section WF.
Variable w : workflow.
Hypothesis WF : well_formed w.
Variable o : nat.
Hypothesis OUT : output w = Some o.

(** What a node has to be to lead to the output. *)
Definition good (x : node) : Prop :=
  match x with
  | NBlock n => needed w n
  | NVar v => v = o \/ (exists n b, needed w n /\ nth_error (blocks w) n = Some b /\
                          (In v (b_in b) \/ exists t, In t (b_in b) /\ In (v, t) (pipes w)))
  end.

Lemma port_twice n m b b' v :
  nth_error (blocks w) n = Some b -> nth_error (blocks w) m = Some b' ->
  In v (b_in b ++ b_out b) -> In v (b_in b' ++ b_out b') -> n = m.
Proof.
  intros N M I I'. assert (P := wf_ports w WF). unfold block_variables in P. revert n m N M P.
  generalize (blocks w) as bs. induction bs as [|c bs IH]; intros [|n] [|m] N M P; cbn in N, M; try discriminate; auto.
  - injection N as ->. exfalso. cbn [flat_map] in P. apply nth_error_In in M.
    assert (J : In v (flat_map (fun b => b_in b ++ b_out b) bs)) by (apply in_flat_map; eauto).
    clear -P I J. revert P I J. generalize (b_in b ++ b_out b) as l.
    induction l as [|a l IHl]; intros P I J; [destruct I|]. cbn in P. inversion P as [|? ? Q R]; subst.
    destruct I as [->|I]; [apply Q, in_app_iff; auto | eauto].
  - injection M as ->. exfalso. cbn [flat_map] in P. apply nth_error_In in N.
    assert (J : In v (flat_map (fun b => b_in b ++ b_out b) bs)) by (apply in_flat_map; eauto).
    clear -P I' J. revert P I' J. generalize (b_in b' ++ b_out b') as l.
    induction l as [|a l IHl]; intros P I J; [destruct I|]. cbn in P. inversion P as [|? ? Q R]; subst.
    destruct I as [->|I]; [apply Q, in_app_iff; auto | eauto].
  - f_equal. eapply IH; eauto. cbn [flat_map] in P. clear -P. revert P. generalize (b_in c ++ b_out c) as l.
    induction l as [|a l IHl]; intros P; [exact P|]. inversion P; auto.
Qed.

Lemma in_not_out n b v : nth_error (blocks w) n = Some b -> In v (b_in b) -> ~ In v (b_out b).
Proof.
  intros N I O. assert (P := wf_ports w WF). unfold block_variables in P. apply nth_error_In in N.
  apply in_split in N as (l1 & l2 & E). rewrite E, flat_map_app in P. cbn [flat_map] in P.
  assert (Q : NoDup (b_in b ++ b_out b)).
  { clear -P. revert P. generalize (flat_map (fun b => b_in b ++ b_out b) l1) as l.
    induction l as [|a l IHl]; intros P.
    - cbn in P. revert P. generalize (flat_map (fun b => b_in b ++ b_out b) l2) as l'.
      generalize (b_in b ++ b_out b) as l. induction l as [|a l IHl]; intros l' P; [constructor|].
      cbn in P. inversion P as [|? ? Q R]; subst. constructor; [|eauto]. intros J. apply Q, in_app_iff. auto.
    - cbn in P. inversion P; auto. }
  revert Q I O. generalize (b_in b) as l. induction l as [|a l IHl]; intros Q I O; [destruct I|].
  cbn in Q. inversion Q as [|? ? A B]; subst. destruct I as [->|I]; [apply A, in_app_iff; auto | auto].
Qed.

(** The output is on a needed block. *)
Lemma out_block : exists n b, nth_error (blocks w) n = Some b /\ In o (b_out b) /\ needed w n.
Proof.
  destruct (wf_output w WF o OUT) as (b & Ib & Io). apply In_nth_error in Ib as [n N].
  exists n, b. split; [exact N|]. split; [exact Io|]. econstructor; eauto.
Qed.

Lemma good_back x y : joined w x y -> good y -> good x.
Proof.
  intros [n b v N I|n b v N I|s t P] G; cbn [good] in *.
  - right. exists n, b. auto.
  - destruct G as [->|(m & bm & H & M & [J|(t & J & P)])].
    + econstructor; eauto.
    + exfalso. assert (n = m) by (apply (port_twice n m b bm v N M); apply in_app_iff; auto). subst m.
      assert (bm = b) by congruence. subst bm. eapply in_not_out; eauto.
    + eapply needed_upstream; [|exact H]. exists b, bm, v, t. auto 6.
  - destruct G as [->|(m & bm & H & M & [J|(t' & J & P')])].
    + exfalso. destruct out_block as (n & b & N & I & _).
      destruct (wf_target w WF s o P) as (c & Ic & It). apply In_nth_error in Ic as [k K].
      assert (n = k) by (apply (port_twice n k b c o N K); apply in_app_iff; auto). subst k.
      assert (c = b) by congruence. subst c. eapply in_not_out; eauto.
    + right. exists m, bm. split; [exact H|]. split; [exact M|]. right. exists t. auto.
    + exfalso. destruct (wf_target w WF s t P) as (c & Ic & It). exact (wf_source w WF t t' c P' Ic It).
Qed.

Lemma leads_good x : leads w x (NVar o) -> good x.
Proof.
  assert (G : forall x y, leads w x y -> good y -> good x).
  { intros a b H. induction H; intros Hg; auto; (eapply good_back; [econstructor; eauto|exact Hg]). }
  intros L. eapply G; [exact L|]. left. reflexivity.
Qed.

Lemma leads_needed n : leads w (NBlock n) (NVar o) <-> needed w n.
Proof. split; [apply leads_good | apply needed_leads; exact OUT]. Qed.

Lemma leads_free v : (forall b, In b (blocks w) -> ~ In v (b_in b ++ b_out b)) ->
  (leads w (NVar v) (NVar o) <->
   exists n b t, needed w n /\ nth_error (blocks w) n = Some b /\ In t (b_in b) /\ In (v, t) (pipes w)).
Proof.
  intros F. split.
  - intros L. apply leads_good in L as [->|(n & b & H & N & [I|(t & I & P)])].
    + exfalso. destruct out_block as (n & b & N & I & _). apply (F b); [eapply nth_error_In; eauto|].
      apply in_app_iff. auto.
    + exfalso. apply (F b); [eapply nth_error_In; eauto | apply in_app_iff; auto].
    + exists n, b, t. auto.
  - intros (n & b & t & H & N & I & P). eapply l_trans; [eapply l_pipe; eauto|].
    eapply l_trans; [eapply l_in; eauto|]. apply needed_leads; assumption.
Qed.
End WF.

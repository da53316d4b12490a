From Coq Require Import ZArith Bool String Ascii Relations List Lia.
From Verif Require Import Base BaseProofs PyValue DataProofs PathsModel PathsSpec PathsProofs SerialModel SerialProofs Topo DerefModel DerefSpec.
Import ListNotations.
Open Scope string_scope.
Open Scope list_scope.

(** ** Paths as lists of segments *)
Definition join (l : list string) : string := match l with [] => "" | s :: r => fold_left slash r s end.
Lemma split_app a b : PathsModel.split (a ++ String "/" b)%string = PathsModel.split a ++ PathsModel.split b.
Proof.
  induction a as [|c a IH]; simpl; [reflexivity|]. rewrite IH. destruct (Ascii.eqb c "/"); [reflexivity|].
  destruct (split_nonempty a) as [x [l ->]]. reflexivity.
Qed.
Lemma split_all s : Forall no_slash (PathsModel.split s).
Proof.
  induction s as [|c s IH]; simpl; [repeat constructor; intros []|]. destruct (Ascii.eqb_spec c "/") as [->|D].
  - constructor; auto. intros [].
  - destruct (split_nonempty s) as [x [l E]]. rewrite E in *. inversion IH as [|? ? N F]; subst. constructor; auto.
    unfold no_slash in *. simpl. intros [H|H]; auto.
Qed.
Lemma fold_slash a r : r <> [] -> fold_left slash r a = (a ++ String "/" (join r))%string.
Proof.
  destruct r as [|s r]; [contradiction|]. intros _. simpl. revert a s. induction r as [|t r IH]; intros a s; simpl; [reflexivity|].
  rewrite (IH (slash a s) t). unfold slash at 1. rewrite (IH s t).
  cbn [String.append]. clear. unfold slash. cbn [String.append]. induction a as [|c a IA]; simpl; [reflexivity|rewrite IA; reflexivity].
Qed.
Lemma join_split s : join (PathsModel.split s) = s.
Proof.
  induction s as [|c s IH]; [reflexivity|]. simpl. destruct (Ascii.eqb_spec c "/") as [->|D].
  - destruct (split_nonempty s) as [x [l E]]. rewrite E in *. unfold join at 1. rewrite fold_slash by discriminate. rewrite IH. reflexivity.
  - destruct (split_nonempty s) as [x [l E]]. rewrite E in *. destruct l as [|y l].
    + simpl in *. rewrite IH. reflexivity.
    + simpl in *. rewrite <- IH. clear. change (fold_left slash (y :: l) (String c x) = String c (fold_left slash (y :: l) x)).
      rewrite !fold_slash by discriminate. reflexivity.
Qed.
Lemma split_join l : l <> [] -> Forall no_slash l -> PathsModel.split (join l) = l.
Proof.
  destruct l as [|s r]; [contradiction|]. intros _ F. simpl. revert s F. induction r as [|t r IH]; intros s F; inversion F as [|? ? N F']; subst.
  - simpl. apply split_no_slash; auto.
  - rewrite fold_slash by discriminate. rewrite split_app, (split_no_slash s) by auto. simpl in *. rewrite IH by auto. reflexivity.
Qed.
Lemma split_inj a b : PathsModel.split a = PathsModel.split b -> a = b.
Proof. intros E. rewrite <- (join_split a), <- (join_split b), E. reflexivity. Qed.
Lemma full_fold segs : full segs = fold_left slash segs "#".
Proof. reflexivity. Qed.
Lemma split_full segs : Forall no_slash segs -> PathsModel.split (full segs) = "#" :: segs.
Proof. intros F. apply (split_join ("#" :: segs)); [discriminate|]. constructor; auto. unfold no_slash. simpl. intuition discriminate. Qed.
Lemma app_string_assoc (a b c : string) : ((a ++ b) ++ c)%string = (a ++ (b ++ c))%string.
Proof. induction a; simpl; congruence. Qed.

Lemma within_split n q : within n q <-> exists ext, PathsModel.split q = PathsModel.split n ++ ext.
Proof.
  split.
  - intros [->|[r ->]]; [exists []; rewrite app_nil_r; auto|]. exists (PathsModel.split r). apply split_app.
  - intros [[|x ext] E].
    + left. apply split_inj. rewrite app_nil_r in E. auto.
    + right. exists (join (x :: ext)). apply split_inj. change (n ++ "/" ++ join (x :: ext))%string with (n ++ String "/" (join (x :: ext)))%string.
      rewrite split_app, E. f_equal. symmetry. apply split_join; [discriminate|]. pose proof (split_all q) as F. rewrite E in F.
      apply Forall_app in F. tauto.
Qed.
Lemma child_split a b : child_of a b <-> exists s, PathsModel.split b = PathsModel.split a ++ [s].
Proof.
  split.
  - intros [s [N ->]]. exists s. change (a ++ "/" ++ s)%string with (a ++ String "/" s)%string. rewrite split_app, (split_no_slash s N). reflexivity.
  - intros [s E]. pose proof (split_all b) as F. rewrite E in F. apply Forall_app in F. destruct F as [_ F]. inversion F as [|? ? N _]; subst.
    exists s. split; auto. apply split_inj. change (a ++ "/" ++ s)%string with (a ++ String "/" s)%string. rewrite split_app, (split_no_slash s N). auto.
Qed.
Lemma within_trans a b c : within a b -> within b c -> within a c.
Proof. rewrite !within_split. intros [x X] [y Y]. exists (x ++ y). rewrite Y, X, app_assoc. reflexivity. Qed.
Lemma child_within a b : child_of a b -> within a b.
Proof. intros [s [_ ->]]. right. eauto. Qed.

(** the nodes and edges along a path *)
Lemma split_slash_1 n s : no_slash s -> PathsModel.split (slash n s) = PathsModel.split n ++ [s].
Proof. intros N. unfold slash. change ("/" ++ s)%string with (String "/" s). rewrite split_app, (split_no_slash s N). reflexivity. Qed.
Lemma chain_in r prev n : Forall no_slash r ->
  In n (chain prev r) <-> exists a b, r = a ++ b /\ a <> [] /\ PathsModel.split n = PathsModel.split prev ++ a.
Proof.
  revert prev. induction r as [|s r IH]; intros prev F; simpl.
  - split; [tauto|]. intros [a [b [E [N _]]]]. symmetry in E. apply app_eq_nil in E. destruct E. contradiction.
  - inversion F as [|? ? NS F']; subst. rewrite (IH _ F'), (split_slash_1 prev s NS). split.
    + intros [<-|[a [b [-> [N E]]]]].
      * exists [s], r. rewrite (split_slash_1 prev s NS). split; auto. split; auto. discriminate.
      * exists (s :: a), b. split; auto. split; [discriminate|]. rewrite E, <- app_assoc. reflexivity.
    + intros [[|t a] [b [E [N E2]]]]; [contradiction|]. injection E as -> ->. destruct a as [|u a].
      * left. apply split_inj. rewrite (split_slash_1 prev t NS). auto.
      * right. exists (u :: a), b. split; auto. split; [discriminate|]. rewrite E2, <- app_assoc. reflexivity.
Qed.
Lemma chain_edges_in r prev x y : Forall no_slash r ->
  In (x, y) (chain_edges prev r) <-> exists a s b, r = a ++ s :: b /\ PathsModel.split x = PathsModel.split prev ++ a /\ PathsModel.split y = PathsModel.split x ++ [s].
Proof.
  revert prev. induction r as [|s r IH]; intros prev F; simpl.
  - split; [tauto|]. intros [a [s [b [E _]]]]. destruct a; discriminate.
  - inversion F as [|? ? NS F']; subst. rewrite (IH _ F'), (split_slash_1 prev s NS). split.
    + intros [E|[a [t [b [-> [E1 E2]]]]]].
      * injection E as <- <-. exists [], s, r. rewrite app_nil_r, (split_slash_1 prev s NS). auto.
      * exists (s :: a), t, b. split; auto. split; auto. rewrite E1, <- app_assoc. reflexivity.
    + intros [[|u a] [t [b [E [E1 E2]]]]]; injection E as -> ->.
      * left. rewrite app_nil_r in E1. apply split_inj in E1. subst. f_equal. apply split_inj. rewrite (split_slash_1 prev t NS). auto.
      * right. exists a, t, b. split; auto. rewrite <- app_assoc. auto.
Qed.
Lemma path_nodes_in p n : In n (path_nodes p) <-> within n p.
Proof.
  unfold path_nodes. destruct (split_nonempty p) as [s [r E]]. pose proof (split_all p) as F. rewrite E in *. inversion F as [|? ? NS F']; subst.
  simpl. rewrite (chain_in r s n F'), within_split, E, (split_no_slash s NS). split.
  - intros [<-|[a [b [-> [_ E2]]]]].
    + exists r. rewrite (split_no_slash s NS). reflexivity.
    + exists b. rewrite E2. reflexivity.
  - intros [ext E2]. destruct (split_nonempty n) as [u [l En]]. rewrite En in *. simpl in E2. injection E2 as -> ->. destruct l as [|v l].
    + left. apply split_inj. rewrite En. apply split_no_slash. auto.
    + right. exists (v :: l), ext. split; auto. split; [discriminate|]. reflexivity.
Qed.
Lemma path_edges_in p x y : In (x, y) (path_edges p) <-> child_of x y /\ within y p.
Proof.
  unfold path_edges. destruct (split_nonempty p) as [s [r E]]. pose proof (split_all p) as F. rewrite E in *. inversion F as [|? ? NS F']; subst.
  rewrite (chain_edges_in r s x y F'), child_split, within_split, E, (split_no_slash s NS). split.
  - intros [a [t [b [-> [E1 E2]]]]]. split; eauto. exists b. rewrite E2, E1. simpl. rewrite <- app_assoc. reflexivity.
  - intros [[t E1] [ext E2]]. destruct (split_nonempty x) as [u [l En]]. rewrite E1, En in E2. simpl in E2. injection E2 as -> ->.
    exists l, t, ext. rewrite <- app_assoc. split; auto.
Qed.

(** ** Finding the pointers *)
Section Find.
Variable str_key : key -> string.
Variable str_nat : nat -> string.
Notation find_references := (find_references str_key str_nat).
Notation part := (part str_key str_nat).
Notation pointer := (pointer str_key str_nat).

(** a dictionary with a marker, going through these segments from [path] *)
Definition spot (v : val) (path q : string) (t : val) : Prop :=
  exists segs d, part v segs (VDict d) /\ In (KStr "$ref", t) d /\ q = fold_left slash segs path.

Lemma part_dict d segs x : part (VDict d) segs x <->
  (segs = [] /\ x = VDict d) \/ (exists k y r, segs = str_key k :: r /\ ~ In (KStr "$ref") (map fst d) /\ In (k, y) d /\ part y r x).
Proof.
  split.
  - intros P. inversion P as [?|? k y r ? N I Q|? l i y r ? S]; subst; auto; [right; exists k, y, r; auto|discriminate].
  - intros [[-> ->]|[k [y [r [-> [N [I P]]]]]]]; [constructor|econstructor; eauto].
Qed.
Lemma part_seq v l segs x : seq_of v = Some l -> part v segs x <->
  (segs = [] /\ x = v) \/ (exists i y r, segs = str_nat i :: r /\ nth_error l i = Some y /\ part y r x).
Proof.
  intros S. split.
  - intros P. inversion P as [?|? k y r ? N I Q|? l' i y r ? S' N]; subst; auto; [discriminate|]. rewrite S in S'. injection S' as <-.
    right. exists i, y, r. auto.
  - intros [[-> ->]|[i [y [r [-> [N P]]]]]]; [constructor|eapply pa_elt; eauto].
Qed.
Lemma part_other v segs x : seq_of v = None -> (forall d, v <> VDict d) -> part v segs x -> segs = [] /\ x = v.
Proof. intros S D P. inversion P as [?|? k y r ? N I Q|? l' i y r ? S' N]; subst; auto; [exfalso; eapply D; eauto|congruence]. Qed.

Lemma spot_dict d path q t : ~ In (KStr "$ref") (map fst d) ->
  spot (VDict d) path q t <-> exists k y, In (k, y) d /\ spot y (slash path (str_key k)) q t.
Proof.
  intros N. split.
  - intros [segs [e [P [I ->]]]]. apply part_dict in P. destruct P as [[-> E]|[k [y [r [-> [_ [K P]]]]]]].
    + injection E as ->. exfalso. apply N. apply in_map_iff. exists (KStr "$ref", t). auto.
    + exists k, y. split; auto. exists r, e. auto.
  - intros [k [y [K [segs [e [P [I ->]]]]]]]. exists (str_key k :: segs), e. split; auto. econstructor; eauto.
Qed.
Lemma spot_ref d path q t u : NoDup (map fst d) -> lookup ref_marker d = Some u -> (spot (VDict d) path q t <-> q = path /\ t = u).
Proof.
  intros ND L. apply lookup_In in L. split.
  - intros [segs [e [P [I ->]]]]. apply part_dict in P. destruct P as [[-> E]|[k [y [r [_ [N _]]]]]].
    + injection E as ->. split; auto. clear - ND L I. induction d as [|[k x] d IH]; [contradiction|]. inversion ND as [|? ? NI ND']; subst.
      destruct L as [L|L], I as [I|I]; try congruence; auto.
      * injection L as -> ->. exfalso. apply NI. apply in_map_iff. exists (ref_marker, t). auto.
      * injection I as -> ->. exfalso. apply NI. apply in_map_iff. exists (ref_marker, u). auto.
    + exfalso. apply N. apply in_map_iff. exists (ref_marker, u). auto.
  - intros [-> ->]. exists [], d. split; [constructor|]. auto.
Qed.
Lemma spot_seq v l path q t : seq_of v = Some l -> spot v path q t <-> exists i y, nth_error l i = Some y /\ spot y (slash path (str_nat i)) q t.
Proof.
  intros S. split.
  - intros [segs [e [P [I ->]]]]. apply (part_seq v l _ _ S) in P. destruct P as [[-> <-]|[i [y [r [-> [N P]]]]]]; [discriminate|].
    exists i, y. split; auto. exists r, e. auto.
  - intros [i [y [N [segs [e [P [I ->]]]]]]]. exists (str_nat i :: segs), e. split; auto. eapply pa_elt; eauto.
Qed.
Lemma spot_other v path q t : seq_of v = None -> (forall d, v <> VDict d) -> ~ spot v path q t.
Proof. intros S D [segs [e [P [I _]]]]. apply part_other in P; auto. destruct P as [_ E]. symmetry in E. eapply D; eauto. Qed.
Lemma base_type_other v : base_type v = true -> seq_of v = None /\ forall d, v <> VDict d.
Proof. destruct v; simpl; try discriminate; intros _; split; auto; discriminate. Qed.

Lemma find_ok v : wf_val v -> forall path refs, find_references v path = Ok refs -> forall q t, In (q, t) refs <-> spot v path q t.
Proof.
  induction v using val_ind'; intros W path refs F q t; simpl in F;
    try (injection F as <-; split; [intros []|intros S; exfalso; revert S; apply spot_other; [reflexivity|discriminate]]); try discriminate.
  1,2: match goal with |- context [spot ?v] => rewrite (spot_seq v l path q t eq_refl) end;
       assert (WL : Forall wf_val l) by (inversion W; auto); clear W;
       assert (G : forall i refs, refs_elements str_nat find_references path i l = Ok refs ->
                     (In (q, t) refs <-> exists j y, nth_error l j = Some y /\ spot y (slash path (str_nat (i + j))) q t));
       [|rewrite (G O refs F); reflexivity]; clear F refs;
       induction H as [|x l HX HL IH]; intros i refs F; simpl in F;
       [injection F as <-; split; [intros []|intros [j [y [N _]]]; destruct j; discriminate]|];
       inversion WL as [|? ? W1 W2]; subst; destruct (find_references x _) as [a|] eqn:FA; [|discriminate]; cbn [bind] in F;
       destruct (refs_elements _ _ _ _ l) as [b|] eqn:FB; [|discriminate]; injection F as <-;
       rewrite in_app_iff, (HX W1 _ _ FA q t), (IH W2 _ _ FB); split;
       [intros [Z|[j [y [N Z]]]];
        [exists O, x; rewrite Nat.add_0_r; auto|exists (S j), y; rewrite Nat.add_succ_r; auto]
       |intros [[|j] [y [N Z]]];
        [injection N as <-; rewrite Nat.add_0_r in Z; auto|rewrite Nat.add_succ_r in Z; right; exists j, y; auto]].
  inversion W as [| | | | | | |? ND WF| |]; subst. destruct (lookup ref_marker d) as [u|] eqn:L.
  - injection F as <-. rewrite (spot_ref d path q t u ND L). simpl. split; [intros [E|[]]; injection E; auto|intros [-> ->]; auto].
  - assert (NR : ~ In (KStr "$ref") (map fst d)).
    { intros I. apply has_key_In in I. unfold has_key in I. change (KStr "$ref") with ref_marker in I. rewrite L in I. discriminate. }
    rewrite (spot_dict d path q t NR). clear L NR W ND. revert refs F. induction H as [|[k x] d HX HD IH]; intros refs F; simpl in F.
    + injection F as <-. split; [intros []|intros [k [y [[] _]]]].
    + inversion WF as [|? ? W1 W2]; subst. simpl in *.
      assert (FA : exists a, (In (q, t) a <-> spot x (slash path (str_key k)) q t) /\
                             exists b, refs_items str_key find_references path d = Ok b /\ refs = a ++ b).
      { destruct (base_type x) eqn:B; cbn [bind] in F.
        - destruct (refs_items _ _ _ d) as [b|]; [|discriminate]. injection F as <-. exists []. split; [|eauto].
          split; [intros []|intros S; exfalso; revert S; apply spot_other; apply base_type_other in B; apply B].
        - destruct (find_references x _) as [a|] eqn:FA; [|discriminate]. cbn [bind] in F.
          destruct (refs_items _ _ _ d) as [b|]; [|discriminate]. injection F as <-. exists a. split; [exact (HX W1 _ _ FA q t)|eauto]. }
      destruct FA as [a [EA [b [FB ->]]]]. rewrite in_app_iff, EA, (IH W2 _ FB). split.
      * intros [S|[k' [y [I S]]]]; [exists k, x|exists k', y]; auto.
      * intros [k' [y [[E|I] S]]]; [injection E as -> ->; auto|right; exists k', y; auto].
Qed.

Lemma find_total v : pointers_ok v -> forall path, exists refs, find_references v path = Ok refs.
Proof.
  induction v using val_ind'; intros P path; simpl; eauto.
  1,2: match goal with P : pointers_ok ?v |- _ => pose proof (everywhere_seq _ _ _ P (eq_refl : seq_of v = Some l)) as F end; clear P;
       generalize O; induction H as [|x l HX HL IH]; intros i; simpl; eauto;
       inversion F as [|? ? F1 F2]; subst; destruct (HX F1 (slash path (str_nat i))) as [a ->]; destruct (IH F2 (S i)) as [b ->]; simpl; eauto.
  - destruct (lookup ref_marker d) eqn:L; eauto. inversion P as [| | | | | | |? _ F| |]; subst. clear P L. induction H as [|[k x] d HX HD IH]; simpl; eauto.
    inversion F as [|? ? F1 F2]; subst. simpl in *. destruct (IH F2) as [b ->]. destruct (base_type x); simpl; eauto.
    destruct (HX F1 (slash path (str_key k))) as [a ->]. simpl. eauto.
  - exfalso. inversion P as [| | | | | | | | |? ? [N _]]; subst. eapply N; eauto.
Qed.

Lemma part_everywhere P v segs x : part v segs x -> everywhere P v -> everywhere P x.
Proof.
  induction 1 as [v|d k y segs x N I Q IH|v l i y segs x S N Q IH]; intros E; auto; apply IH.
  - eapply everywhere_dict; eauto.
  - pose proof (everywhere_seq _ _ _ E S) as F. rewrite Forall_forall in F. apply F. eapply nth_error_In; eauto.
Qed.
Lemma part_wf v segs x : part v segs x -> wf_val v -> wf_val x.
Proof.
  induction 1 as [v|d k y segs x N I Q IH|v l i y segs x S N Q IH]; intros E; auto; apply IH.
  - eapply wf_dict_in; eauto.
  - pose proof (wf_seq _ _ E S) as F. rewrite Forall_forall in F. apply F. eapply nth_error_In; eauto.
Qed.

Notation references := (references str_key str_nat).
Lemma references_iff v refs : wf_val v -> references v = Ok refs -> forall p t, In (p, t) refs <-> pointer v p t.
Proof.
  intros W R p t. unfold DerefModel.references in R. destruct (find_references v "#") as [r|] eqn:F; [|discriminate]. cbn [bind] in R.
  assert (E : In (p, t) refs <-> In (p, VStr t) r).
  { clear F. revert refs R. induction r as [|[q u] r IH]; intros refs R; simpl in R.
    - injection R as <-. tauto.
    - destruct u; simpl in R; try discriminate. destruct (mapM _ r) as [ys|]; [|discriminate]. injection R as <-. simpl. rewrite (IH ys eq_refl). split.
      + intros [E|I]; [injection E as -> ->; auto|auto].
      + intros [E|I]; [injection E as -> ->; auto|auto]. }
  rewrite E, (find_ok v W _ _ F). reflexivity.
Qed.
Lemma references_total v : wf_val v -> pointers_ok v -> exists refs, references v = Ok refs.
Proof.
  intros W P. unfold DerefModel.references. destruct (find_total v P "#") as [r F]. rewrite F. cbn [bind].
  assert (S : forall q u, In (q, u) r -> exists t, u = VStr t).
  { intros q u I. apply (find_ok v W _ _ F) in I. destruct I as [segs [d [Q [I _]]]]. apply (part_everywhere _ _ _ _ Q) in P.
    apply everywhere_here in P. destruct P as [_ P]. destruct (P d u eq_refl I) as [t ->]. eauto. }
  clear F. induction r as [|[q u] r IH]; simpl; eauto. destruct (S q u (or_introl eq_refl)) as [t ->]. simpl.
  destruct IH as [ys ->]; [intros; eapply S; right; eauto|]. simpl. eauto.
Qed.
Lemma pointer_within v p t : pointer v p t -> within "#" p.
Proof.
  intros [segs [d [_ [_ ->]]]]. unfold full. destruct segs as [|s r]; [left; reflexivity|]. right. exists (join (s :: r)).
  change (fold_left slash (s :: r) "#" = ("#" ++ String "/" (join (s :: r)))%string). apply fold_slash. discriminate.
Qed.
End Find.

(** ** Going up *)
Lemma up_split node l s : PathsModel.split node = l ++ [s] -> l <> [] -> PathsModel.split (up node) = l.
Proof.
  intros E N. unfold up. rewrite E, removelast_last. apply split_concat; auto. pose proof (split_all node) as F. rewrite E in F.
  apply Forall_app in F. tauto.
Qed.
Lemma hash_split n : within "#" n <-> exists l, PathsModel.split n = "#" :: l.
Proof. rewrite within_split. reflexivity. Qed.
Lemma hash_is n : PathsModel.split n = ["#"] -> n = "#".
Proof. intros E. apply split_inj. rewrite E. reflexivity. Qed.
Lemma up_hash node : within "#" node -> node <> "#" -> exists s, PathsModel.split node = PathsModel.split (up node) ++ [s] /\ within "#" (up node).
Proof.
  rewrite hash_split. intros [l E] D. destruct l as [|a l] using rev_ind; [exfalso; apply D, hash_is; auto|]. clear IHl.
  assert (U : PathsModel.split (up node) = "#" :: l) by (apply (up_split node ("#" :: l) a); [auto|discriminate]).
  exists a. rewrite U. split; auto. apply hash_split. eauto.
Qed.
Lemma up_not_hash node : ~ within "#" node -> ~ within "#" (up node).
Proof.
  intros N H. destruct (split_nonempty node) as [x [l E]]. destruct l as [|a l _] using rev_ind.
  - unfold up in H. rewrite E in H. simpl in H. apply hash_split in H. destruct H as [r H]. discriminate.
  - assert (U : PathsModel.split (up node) = x :: l) by (apply (up_split node (x :: l) a); [auto|discriminate]).
    apply hash_split in H. destruct H as [r H]. rewrite U in H. injection H as -> ->. apply N. apply hash_split. eauto.
Qed.

Lemma climb_total n rbp path node ex ch : within "#" node -> length (PathsModel.split node) <= S n -> exists r, climb n rbp path node ex ch = Ok r.
Proof.
  revert node ex ch. induction n as [|n IH]; intros node ex ch W L; simpl; destruct (String.eqb_spec node "#") as [->|D]; eauto.
  - exfalso. apply hash_split in W. destruct W as [l E]. destruct l; [apply D, hash_is; auto|]. rewrite E in L. simpl in L. lia.
  - destruct (up_hash node W D) as [s [E W']]. rewrite E, app_length in L. simpl in L.
    destruct (assoc node rbp); apply IH; auto; lia.
Qed.
Lemma climb_diverges n rbp path node ex ch : ~ within "#" node -> climb n rbp path node ex ch = Err OutOfFuel.
Proof.
  revert node ex ch. induction n as [|n IH]; intros node ex ch W; simpl; destruct (String.eqb_spec node "#") as [->|D]; auto;
    try (exfalso; apply W; left; reflexivity). destruct (assoc node rbp); apply IH; apply up_not_hash; auto.
Qed.
Lemma climb_direct n rbp path node ex ch r : (forall m, within m node -> assoc m rbp = None) -> climb n rbp path node ex ch = Ok r -> r = (ex, ch).
Proof.
  revert node. induction n as [|n IH]; intros node H C; simpl in C; destruct (String.eqb_spec node "#") as [->|D]; try congruence.
  rewrite (H node (or_introl eq_refl)) in C. apply IH in C; auto. intros m M. apply H. destruct (split_nonempty node) as [x [l E]].
  destruct l as [|a l _] using rev_ind.
  - exfalso. assert (U : up node = "") by (unfold up; rewrite E; reflexivity). rewrite U in *. clear - C.
    assert (N : climb n rbp path "" ex ch = Err OutOfFuel).
    { apply climb_diverges. intros W. apply hash_split in W. destruct W. discriminate. }
    congruence.
  - assert (U : PathsModel.split (up node) = x :: l) by (apply (up_split node (x :: l) a); [auto|discriminate]).
    apply within_split in M. destruct M as [e M]. apply within_split. exists (e ++ [a]). rewrite E, app_assoc, <- M, U. reflexivity.
Qed.
Lemma assoc_In {A} (p : string) (m : list (string * A)) x : assoc p m = Some x -> In (p, x) m.
Proof.
  induction m as [|[q y] m IH]; simpl; [discriminate|]. destruct (String.eqb_spec p q) as [->|D]; [intros E; injection E as ->; auto|auto].
Qed.
Lemma assoc_None {A} (p : string) (m : list (string * A)) : (forall x, ~ In (p, x) m) -> assoc p m = None.
Proof. intros H. destruct (assoc p m) eqn:E; auto. apply assoc_In in E. exfalso. eapply H; eauto. Qed.

Lemma mapM_ok {A B} (f : A -> res B) l ys : mapM f l = Ok ys -> Forall2 (fun x y => f x = Ok y) l ys.
Proof.
  revert ys. induction l as [|x l IH]; intros ys H; simpl in H; [injection H as <-; constructor|].
  destruct (f x) eqn:E; [|discriminate]. cbn [bind] in H. destruct (mapM f l); [|discriminate]. injection H as <-. constructor; auto.
Qed.
Lemma mapM_all {A B} (f : A -> res B) l : (forall x, In x l -> exists y, f x = Ok y) -> exists ys, mapM f l = Ok ys.
Proof.
  induction l as [|x l IH]; intros H; simpl; eauto. destruct (H x (or_introl eq_refl)) as [y ->]. destruct IH as [ys ->]; [intros; apply H; right; auto|].
  simpl. eauto.
Qed.

Lemma clos_mono {A} (R S : A -> A -> Prop) : (forall a b, R a b -> S a b) -> forall a b, clos_trans A R a b -> clos_trans A S a b.
Proof. intros H a b C. induction C; [apply t_step; auto|eapply t_trans; eauto]. Qed.
Lemma clos_first {A} (R : A -> A -> Prop) a b : clos_trans A R a b -> exists c, R a c.
Proof. induction 1; eauto. Qed.

Section Graph.
Variable str_key : key -> string.
Variable str_nat : nat -> string.
Notation pointer := (pointer str_key str_nat).
Notation mentioned := (mentioned str_key str_nat).
Notation depends := (depends str_key str_nat).
Notation direct := (direct str_key str_nat).
Notation rooted := (rooted str_key str_nat).
Notation pointer_graph := (pointer_graph str_key str_nat).
Notation references := (references str_key str_nat).

Lemma graph_ok n v g : wf_val v -> pointer_graph n v = Ok g ->
  (forall m, In m (nodes g) <-> mentioned v m) /\ (forall a b, depends v a b -> edge (edges g) a b)
  /\ (direct v -> (forall a b, edge (edges g) a b -> depends v a b) /\ equals g = []).
Proof.
  intros W G. unfold DerefModel.pointer_graph in G. destruct (references v) as [refs|] eqn:R; [|discriminate]. cbn [bind] in G.
  pose proof (references_iff str_key str_nat v refs W R) as RI.
  destruct (mapM _ refs) as [ex|] eqn:X; [|discriminate]. injection G as <-. simpl. split; [|split].
  - intros m. rewrite in_flat_map. split.
    + intros [[p t] [I H]]. rewrite RI in I. simpl in H. rewrite in_app_iff, !path_nodes_in in H. exists p, t. auto.
    + intros [p [t [P H]]]. exists (p, t). rewrite RI. simpl. rewrite in_app_iff, !path_nodes_in. auto.
  - intros a b D. unfold edge. rewrite !in_app_iff, in_flat_map. destruct D as [P|[C [p [t [P H]]]]].
    + right. left. apply RI. auto.
    + left. exists (p, t). rewrite RI. split; auto. simpl. rewrite in_app_iff, !path_edges_in. tauto.
  - intros D. assert (XE : forall y, In y ex -> y = ([], [])).
    { intros y Y. apply mapM_ok in X. clear - RI X Y D W. destruct (in_split _ _ Y) as [e1 [e2 ->]]. apply Forall2_app_inv_r in X.
      destruct X as [r1 [r2 [_ [X E]]]]. inversion X as [|[p t] ? r3 ? C _]; subst. simpl in C.
      destruct (climb n _ p t [] None) as [ec|] eqn:K; [|discriminate]. simpl in C. injection C as <-.
      apply climb_direct in K; [subst; reflexivity|]. intros m M. apply assoc_None. intros u I. apply in_rev in I.
      eapply D; [apply RI; apply in_or_app; right; left; reflexivity|apply RI; exact I|exact M]. }
    assert (E1 : flat_map fst ex = []).
    { clear X. induction ex as [|y ex IH]; simpl; auto. rewrite (XE y (or_introl eq_refl)). simpl. apply IH. intros; apply XE; right; auto. }
    assert (E2 : flat_map snd ex = []).
    { clear X E1. induction ex as [|y ex IH]; simpl; auto. rewrite (XE y (or_introl eq_refl)). simpl. apply IH. intros; apply XE; right; auto. }
    rewrite E1, E2. split; auto. intros a b. unfold edge. simpl. rewrite app_nil_r, in_app_iff, in_flat_map. intros [[[p t] [I H]]|I].
    + apply RI in I. simpl in H. rewrite in_app_iff, !path_edges_in in H. right. destruct H as [[C H]|[C H]]; split; auto; exists p, t; auto.
    + left. apply RI. auto.
Qed.
(** enough turns *)
Definition deep_enough (n : nat) (v : val) : Prop := forall p t, pointer v p t -> length (PathsModel.split t) <= S n.
Lemma graph_total n v : wf_val v -> pointers_ok v -> rooted v -> deep_enough n v -> exists g, pointer_graph n v = Ok g.
Proof.
  intros W P RO D. unfold DerefModel.pointer_graph. destruct (references_total str_key str_nat v W P) as [refs R]. rewrite R. cbn [bind].
  pose proof (references_iff str_key str_nat v refs W R) as RI.
  match goal with |- context [mapM ?f refs] => destruct (mapM_all f refs) as [ex ->]; [|cbn [bind]; eauto] end.
  intros [p t] I. apply RI in I. simpl. destruct (climb_total n (rev refs) p t [] None) as [r ->]; [eapply RO; eauto|eapply D; eauto|].
  simpl. eauto.
Qed.
(** a target outside the document *)
Lemma climb_err n rbp path node ex ch e : climb n rbp path node ex ch = Err e -> e = OutOfFuel.
Proof.
  revert node ex ch. induction n as [|n IH]; intros node ex ch C; simpl in C; destruct (String.eqb node "#"); try congruence.
  destruct (assoc node rbp); eauto.
Qed.
Lemma graph_diverges n v p t : wf_val v -> pointers_ok v -> pointer v p t -> ~ within "#" t -> pointer_graph n v = Err OutOfFuel.
Proof.
  intros W PO P N. unfold DerefModel.pointer_graph. destruct (references_total str_key str_nat v W PO) as [refs R]. rewrite R. cbn [bind].
  pose proof (references_iff str_key str_nat v refs W R) as RI. rewrite <- RI in P.
  match goal with |- context [mapM ?f refs] => assert (M : mapM f refs = Err OutOfFuel); [|rewrite M; reflexivity] end.
  set (rb := rev refs). clearbody rb. clear RI R.
  induction refs as [|[q u] refs IH]; [contradiction|]. cbn [mapM].
  destruct (climb n rb (fst (q, u)) (snd (q, u)) [] None) as [r|e] eqn:C; cbn [bind].
  - destruct P as [E|P].
    + injection E as -> ->. simpl in C. rewrite climb_diverges in C by auto. discriminate.
    + rewrite IH; auto.
  - apply climb_err in C. congruence.
Qed.

Variable sort : list string -> list (string * string) -> option (list string).
Hypothesis SORT : sorts sort.
Notation deserialization_order := (deserialization_order str_key str_nat sort).

Lemma mentioned_root v m : mentioned v m -> mentioned v "#".
Proof. intros [p [t [P _]]]. exists p, t. split; auto. left. eapply pointer_within; eauto. Qed.
Lemma depends_mentioned v a b : depends v a b -> mentioned v a /\ mentioned v b.
Proof.
  intros [P|[C M]].
  - split; exists a, b; split; auto; [left|right]; left; reflexivity.
  - split; auto. destruct M as [p [t [P H]]]. exists p, t. split; auto. apply child_within in C.
    destruct H; [left|right]; eapply within_trans; eauto.
Qed.

Lemma order_ok n v order : wf_val v -> deserialization_order n v = Ok order ->
  NoDup (map fst order) /\ ~ In "#" (map fst order)
  /\ (forall m, mentioned v m -> m <> "#" -> In m (map fst order))
  /\ (forall a b, depends v a b -> a <> "#" -> b <> "#" /\ before b a (map fst order))
  /\ ~ (exists x, clos_trans _ (depends v) x x)
  /\ (direct v -> (forall m r, In (m, r) order -> mentioned v m /\ r = None)).
Proof.
  intros W O. unfold DerefModel.deserialization_order in O. destruct (pointer_graph n v) as [g|] eqn:G; [|discriminate]. cbn [bind] in O.
  destruct (graph_ok n v g W G) as [NI [EI DI]].
  destruct (memb String.eqb "#" (nodes g)) eqn:M.
  - destruct (sort (nodes g) (edges g)) as [l|] eqn:S; [|discriminate]. injection O as <-.
    pose proof (sorts_acyclic sort _ _ _ SORT S) as AC. pose proof (SORT (nodes g) (edges g)) as SO. rewrite S in SO. destruct SO as [ND [LI BE]].
    assert (FST : forall l', map fst (map (fun node => (node, assoc node (equals g))) l') = l').
    { intros l'. rewrite map_map. simpl. apply map_id. }
    rewrite FST. set (f := fun s => negb (String.eqb s "#")).
    assert (FT : forall m, f m = true <-> m <> "#").
    { intros m. unfold f. rewrite negb_true_iff. apply String.eqb_neq. }
    assert (AC' : ~ (exists x, clos_trans _ (depends v) x x)).
    { intros [x C]. apply AC. exists x. eapply clos_mono; [|exact C]. auto. }
    split; [apply NoDup_filter; auto|]. split; [intros I; apply filter_In in I; destruct I as [_ I]; apply FT in I; auto|].
    split; [intros m MM D; apply filter_In; split; [apply LI; left; apply NI; auto|apply FT; auto]|]. split; [|split; auto].
    + intros a b D A. assert (B : b <> "#").
      { intros ->. apply AC'. destruct (depends_mentioned v a "#" D) as [MA _].
        (* the root leads to everything mentioned *)
        assert (RT : forall sl c, PathsModel.split c = "#" :: sl -> mentioned v c -> c <> "#" -> clos_trans _ (depends v) "#" c).
        { induction sl as [|s sl IH] using rev_ind; intros c E MC NC; [exfalso; apply NC, hash_is; auto|].
          assert (U : PathsModel.split (up c) = "#" :: sl) by (apply (up_split c ("#" :: sl) s); [auto|discriminate]).
          assert (CH : child_of (up c) c) by (apply child_split; exists s; rewrite U; auto).
          assert (DC : depends v (up c) c) by (right; auto).
          destruct (string_dec (up c) "#") as [EU|NU].
          - rewrite EU in DC. apply t_step; auto.
          - eapply t_trans; [|apply t_step; exact DC]. apply IH; auto. apply (depends_mentioned v (up c) c DC). }
        assert (HA : within "#" a).
        { destruct D as [P|[[s [_ E]] _]]; [eapply pointer_within; eauto|].
          destruct (split_nonempty a) as [x [la EA]]. exfalso. assert (Q : PathsModel.split "#" = PathsModel.split a ++ [s] \/ True) by auto.
          apply (f_equal PathsModel.split) in E. change (a ++ "/" ++ s)%string with (a ++ String "/" s)%string in E.
          rewrite split_app, EA in E. simpl in E. destruct la; [|discriminate]. injection E as _ E. destruct (split_nonempty s) as [? [? ES]].
          rewrite ES in E. discriminate. }
        apply hash_split in HA. destruct HA as [la EA]. exists "#". eapply t_trans; [apply (RT la a EA MA A)|apply t_step; exact D]. }
      split; auto. apply before_filter; [apply BE; auto|apply FT; auto|apply FT; auto].
    + intros D m r I. apply in_map_iff in I. destruct I as [m' [E I]]. injection E as -> <-. destruct (DI D) as [DE QE]. rewrite QE. split; auto.
      apply filter_In in I. destruct I as [I _]. apply LI in I. destruct I as [I|[y [I|I]]]; [apply NI; auto| |];
        apply DE in I; apply depends_mentioned in I; tauto.
  - injection O as <-. simpl. split; [constructor|]. split; [auto|].
    assert (NM : forall m, ~ mentioned v m).
    { intros m H. apply mentioned_root in H. apply NI in H. apply memb_In_false in M; auto. exact String.eqb_eq. }
    split; [intros m H; exfalso; eapply NM; eauto|]. split; [intros a b D; exfalso; apply depends_mentioned in D; eapply NM; apply D|].
    split; [|intros _ m r []]. intros [x C]. apply clos_first in C. destruct C as [y D].
    apply depends_mentioned in D. eapply NM; apply D.
Qed.
Lemma order_cycle n v : wf_val v -> pointers_ok v -> rooted v -> deep_enough n v -> (exists x, clos_trans _ (depends v) x x) ->
  deserialization_order n v = Err NotImplementedError.
Proof.
  intros W P RO D C. destruct (deserialization_order n v) as [o|e] eqn:E.
  - exfalso. apply (order_ok n v o W) in E. tauto.
  - unfold DerefModel.deserialization_order in E. destruct (graph_total n v W P RO D) as [g G]. rewrite G in E. cbn [bind] in E.
    destruct (memb _ _ _); [|discriminate]. destruct (sort _ _); [discriminate|congruence].
Qed.
Lemma order_total n v : wf_val v -> pointers_ok v -> rooted v -> deep_enough n v -> direct v -> ~ (exists x, clos_trans _ (depends v) x x) ->
  exists order, deserialization_order n v = Ok order.
Proof.
  intros W P RO D DI C. unfold DerefModel.deserialization_order. destruct (graph_total n v W P RO D) as [g G]. rewrite G. cbn [bind].
  destruct (memb _ _ _); [|eauto]. destruct (sort _ _) eqn:S; [eauto|]. exfalso. apply C. pose proof (SORT (nodes g) (edges g)) as SO. rewrite S in SO.
  destruct SO as [x X]. destruct (graph_ok n v g W G) as [_ [_ H]]. destruct (H DI) as [DE _]. exists x. eapply clos_mono; [|exact X]. auto.
Qed.
End Graph.

(** ** Following the pointers *)
Lemma full_app p s : full (p ++ [s]) = slash (full p) s.
Proof. unfold full. rewrite fold_left_app. reflexivity. Qed.
Lemma full_inj p q : Forall no_slash p -> Forall no_slash q -> full p = full q -> p = q.
Proof. intros P Q E. apply (f_equal PathsModel.split) in E. rewrite !split_full in E by auto. congruence. Qed.

Section Follow.
Variable str_key : key -> string.
Variable str_nat : nat -> string.
Variable int_of : string -> option Z.
Variable isdigit : string -> bool.
Hypothesis str_key_str : forall s, str_key (KStr s) = s.
Hypothesis str_nat_slash : forall n, no_slash (str_nat n).
Hypothesis int_str_nat : forall n, int_of (str_nat n) = Some (Z.of_nat n).
Variable class_named : string -> res (option val).
Variable find_class : val -> res string.
Variable arguments : string -> list string.
Variable tuple_annotated : string -> string -> bool.
Variable construct : string -> list (key * val) -> res val.
Variable root : val.
Hypothesis WF : wf_val root.
Hypothesis NAMED : named_keys str_key str_nat root.
Notation part := (part str_key str_nat).
Notation pointer := (pointer str_key str_nat).
Notation mentioned := (mentioned str_key str_nat root).
Notation depends := (depends str_key str_nat).
Notation describes := (describes str_key str_nat class_named find_class arguments tuple_annotated construct root).
Notation deserialize := (deserialize str_key class_named find_class arguments tuple_annotated construct str_nat).

Lemma str_nat_inj i j : str_nat i = str_nat j -> i = j.
Proof. intros E. apply (f_equal int_of) in E. rewrite !int_str_nat in E. injection E. lia. Qed.

Lemma part_named q x d k : part root q x -> x = VDict d -> ~ In (KStr "$ref") (map fst d) -> In k (map fst d) -> exists s, k = KStr s /\ no_slash s.
Proof. intros P -> N I. destruct NAMED as [E _]. eapply E; eauto. Qed.
Lemma part_app v q x y r : part v q x -> part x r y -> part v (q ++ r) y.
Proof.
  induction 1 as [v|d k z segs x N I Q IH|v l i z segs x S N Q IH]; intros P; simpl; auto.
  - econstructor; eauto.
  - eapply pa_elt; eauto.
Qed.
Definition keyed (v : val) : Prop :=
  forall q d k, part v q (VDict d) -> ~ In (KStr "$ref") (map fst d) -> In k (map fst d) -> exists s, k = KStr s /\ no_slash s.
Lemma keyed_here d k : keyed (VDict d) -> ~ In (KStr "$ref") (map fst d) -> In k (map fst d) -> exists s, k = KStr s /\ no_slash s.
Proof. intros K. apply (K []). constructor. Qed.
Lemma keyed_dict d k y : keyed (VDict d) -> ~ In (KStr "$ref") (map fst d) -> In (k, y) d -> keyed y.
Proof. intros K N I q e j P. apply (K (str_key k :: q)). econstructor; eauto. Qed.
Lemma keyed_seq v l i y : keyed v -> seq_of v = Some l -> nth_error l i = Some y -> keyed y.
Proof. intros K S N q e j P. apply (K (str_nat i :: q)). eapply pa_elt; eauto. Qed.
Lemma part_segs v q x : keyed v -> part v q x -> Forall no_slash q.
Proof.
  intros K P. induction P as [v|d k z segs x N I Q IH|v l i z segs x S N Q IH]; constructor.
  - destruct (keyed_here d k K N) as [s [-> NS]]; [apply in_map_iff; exists (k, z); auto|]. rewrite str_key_str. auto.
  - apply IH. eapply keyed_dict; eauto.
  - apply str_nat_slash.
  - apply IH. eapply keyed_seq; eauto.
Qed.
Lemma part_fun v q x y : keyed v -> wf_val v -> part v q x -> part v q y -> x = y.
Proof.
  intros K W P. revert y. induction P as [v|d k z segs x N I Q IH|v l i z segs x S N Q IH]; intros y' R.
  - inversion R; reflexivity.
  - apply part_dict in R. destruct R as [[E _]|[k' [z' [r [E [_ [I' R]]]]]]]; [discriminate|]. injection E as EK ->.
    destruct (keyed_here d k K N) as [s [-> _]]; [apply in_map_iff; exists (k, z); auto|].
    destruct (keyed_here d k' K N) as [s' [-> _]]; [apply in_map_iff; exists (k', z'); auto|].
    rewrite !str_key_str in EK. subst s'. inversion W as [| | | | | | |? ND _| |]; subst.
    assert (z = z').
    { apply (lookup_nodup _ _ _ ND) in I. apply (lookup_nodup _ _ _ ND) in I'. congruence. }
    subst. apply IH; [eapply keyed_dict; eauto|eapply wf_dict_in; eauto|auto].
  - apply (part_seq _ _ v l _ _ S) in R. destruct R as [[E _]|[i' [z' [r [E [N' R]]]]]]; [discriminate|]. injection E as EK ->.
    apply str_nat_inj in EK. subst i'. rewrite N in N'. injection N' as <-.
    pose proof (wf_seq _ _ W S) as FW. rewrite Forall_forall in FW.
    apply IH; [eapply keyed_seq; eauto| |auto]. apply FW. eapply nth_error_In; eauto.
Qed.
Lemma keyed_root : keyed root.
Proof. destruct NAMED as [E _]. exact E. Qed.

(** looking the part up *)
Lemma find_part v s r x : keyed v -> wf_val v -> part v (s :: r) x -> exists st y, find int_of isdigit v s = Ok (st, y) /\ part y r x /\ keyed y.
Proof.
  intros K W P. remember (s :: r) as q eqn:Q. destruct P as [v|d k z segs x N I P|v l i z segs x S N P]; inversion Q; subst.
  - pose proof (keyed_dict d k z K N I) as KZ.
    destruct (keyed_here d k K N) as [t [-> _]]; [apply in_map_iff; exists (k, z); auto|]. rewrite str_key_str. simpl.
    inversion W as [| | | | | | |? ND _| |]; subst. rewrite (proj2 (lookup_nodup _ _ _ ND) I). eauto.
  - rewrite (find_seq int_of isdigit v l _ S), int_str_nat.
    assert (PI : py_index (length l) (Z.of_nat i) = Some i).
    { apply py_index_iff. split; auto. apply nth_error_Some. congruence. }
    rewrite PI, N. simpl. eexists. eexists. split; [reflexivity|]. split; auto. eapply keyed_seq; eauto.
Qed.
Lemma get_part v q x : keyed v -> wf_val v -> part v q x -> forall loc, exists loc',
  foldM (fun (lv : list step * val) s => let* lv' := match snd lv with VDict d => if false then Err AttributeError else Ok lv | _ => Ok lv end in
           let* sw := find int_of isdigit (snd lv') s in Ok (fst lv' ++ [fst sw], snd sw)) q (loc, v) = Ok (loc', x).
Proof.
  revert v. induction q as [|s r IH]; intros v K W P loc.
  - inversion P; subst. simpl. eauto.
  - destruct (find_part v s r x K W P) as [st [y [F [PY KY]]]]. cbn [foldM]. cbn [snd].
    assert (E : (let* lv' := match v with VDict d => if false then Err AttributeError else Ok (loc, v) | _ => Ok (loc, v) end in
                 let* sw := find int_of isdigit (snd lv') s in Ok (fst lv' ++ [fst sw], snd sw)) = Ok (loc ++ [st], y)).
    { destruct v; cbn [bind fst snd]; rewrite F; reflexivity. }
    rewrite E. cbn [bind]. apply IH; auto.
    pose proof (find_child _ _ _ _ _ _ F) as C. eapply child_wf; eauto.
Qed.
Lemma segments_full q x : part root q x -> q <> [] -> segments (full q) = q.
Proof.
  intros P N. assert (F : Forall no_slash q) by (eapply part_segs; [apply keyed_root|eauto]).
  assert (G : good_segments q).
  { split; auto. destruct NAMED as [KN [d [-> A]]]. apply part_dict in P. destruct P as [[E _]|[k [y [r [-> [NR [I _]]]]]]]; [contradiction|].
    destruct (KN [] d k) as [s [-> _]]; [constructor|auto|apply in_map_iff; exists (k, y); auto|].
    rewrite str_key_str. destruct (A s) as [c [t [-> [C1 C2]]]]; [apply in_map_iff; exists (KStr s, y); auto|]. exists c, t, r. auto. }
  assert (E : full q = path_of q).
  { apply split_inj. rewrite split_full by auto. unfold path_of. change ("#/" ++ String.concat "/" q)%string with ("#" ++ String "/" (String.concat "/" q))%string.
    rewrite split_app, split_concat by auto. reflexivity. }
  rewrite E. apply segments_path; auto.
Qed.
Lemma get_ok q x : part root q x -> q <> [] -> get_in_object_from_path int_of isdigit 1 root (full q) false = Ok x.
Proof.
  intros P N. unfold get_in_object_from_path. rewrite (segments_full q x P N). cbn [get_at].
  destruct (get_part root q x keyed_root WF P []) as [loc' E].
  match goal with |- bind ?l _ = _ => assert (EE : l = Ok (loc', x)) end; [|rewrite EE; reflexivity].
  exact E.
Qed.

(** what is described is unique *)
Lemma entries_eq {A} (d e : list (key * A)) : NoDup (map fst d) -> map fst d = map fst e ->
  (forall k x y, In (k, x) d -> In (k, y) e -> x = y) -> d = e.
Proof.
  revert e. induction d as [|[k x] d IH]; intros [|[k' y] e] N E H; simpl in *; try discriminate; auto.
  injection E as -> E. inversion N as [|? ? NI ND]; subst. f_equal.
  - f_equal. apply (H k'); auto.
  - apply IH; auto. intros j u w U W. apply (H j); auto.
Qed.
Lemma in_of_key {A} k (d : list (key * A)) : In k (map fst d) -> exists x, In (k, x) d.
Proof. intros I. apply in_map_iff in I. destruct I as [[j x] [<- I]]. eauto. Qed.

Lemma nth_error_ext {A} (l m : list A) : (forall i, nth_error l i = nth_error m i) -> l = m.
Proof.
  revert m. induction l as [|x l IH]; intros [|y m] H; auto; try (specialize (H O); discriminate).
  f_equal; [specialize (H O); simpl in H; congruence|]. apply IH. intros i. apply (H (S i)).
Qed.
Lemma describes_fun p a x u : describes p a x u -> part root p x -> forall u', describes p a x u' -> u = u'.
Proof.
  induction 1 as [p a x S D NS|p a s t C|p a x l l' S L O H IH|p x l l' S L O H IH|p a d d' N1 N2 E H IH|p a d cn c kw u N1 O C E H IH K|p a d q x u I Q H IH];
    intros PA u' K'.
  - inversion K' as [? ? ? S' D' NS'|? ? s t C|? ? ? m m' S' L' O' H'|? ? m m' S' L' O' H'|? ? e e' N1' N2' E' H'|? ? e cn' c' kw' ? N1' O' C' E' H' K2|? ? e q' x' ? I' Q' H'];
      subst; auto; try congruence; exfalso; first [eapply NS; reflexivity|eapply D; reflexivity].
  - inversion K' as [? ? ? S' D' NS'|? ? s' t' C'|? ? ? m m' S' L' O' H'|? ? m m' S' L' O' H'|? ? e e' N1' N2' E' H'|? ? e cn' c' kw' ? N1' O' C' E' H' K2|? ? e q' x' ? I' Q' H'];
      subst; try discriminate; [exfalso; eapply NS'; reflexivity|]. rewrite C in C'. injection C' as <-. reflexivity.
  - assert (EL : forall m', length l = length m' ->
        (forall i y z, nth_error l i = Some y -> nth_error m' i = Some z -> describes (p ++ [str_nat i]) false y z) -> l' = m').
    { intros m' LM HM. apply nth_error_ext. intros i. destruct (nth_error l i) as [y|] eqn:Y.
      - assert (I : i < length l) by (apply nth_error_Some; congruence).
        destruct (nth_error l' i) as [z|] eqn:Z; [|apply nth_error_None in Z; lia].
        destruct (nth_error m' i) as [z'|] eqn:Z'; [|apply nth_error_None in Z'; lia]. f_equal. eapply IH; eauto.
        eapply part_app; eauto. eapply pa_elt; eauto. constructor.
      - apply nth_error_None in Y. rewrite (proj2 (nth_error_None l' i)), (proj2 (nth_error_None m' i)) by lia. reflexivity. }
    inversion K' as [? ? ? S' D' NS'|? ? s' t' C'|? ? ? m m' S' L' O' H'|? ? m m' S' L' O' H'|? ? e e' N1' N2' E' H'|? ? e cn' c' kw' ? N1' O' C' E' H' K2|? ? e q' x' ? I' Q' H'];
      subst; try discriminate; try congruence; rewrite S in S'; injection S' as <-.
    + f_equal. auto.
    + exfalso. destruct O; [discriminate|auto].
  - assert (EL : forall m', length l = length m' ->
        (forall i y z, nth_error l i = Some y -> nth_error m' i = Some z -> describes (p ++ [str_nat i]) false y z) -> l' = m').
    { intros m' LM HM. apply nth_error_ext. intros i. destruct (nth_error l i) as [y|] eqn:Y.
      - assert (I : i < length l) by (apply nth_error_Some; congruence).
        destruct (nth_error l' i) as [z|] eqn:Z; [|apply nth_error_None in Z; lia].
        destruct (nth_error m' i) as [z'|] eqn:Z'; [|apply nth_error_None in Z'; lia]. f_equal. eapply IH; eauto.
        eapply part_app; eauto. eapply pa_elt; eauto. constructor.
      - apply nth_error_None in Y. rewrite (proj2 (nth_error_None l' i)), (proj2 (nth_error_None m' i)) by lia. reflexivity. }
    inversion K' as [? ? ? S' D' NS'|? ? s' t' C'|? ? ? m m' S' L' O' H'|? ? m m' S' L' O' H'|? ? e e' N1' N2' E' H'|? ? e cn' c' kw' ? N1' O' C' E' H' K2|? ? e q' x' ? I' Q' H'];
      subst; try discriminate; try congruence; rewrite S in S'; injection S' as <-.
    + exfalso. destruct O'; [discriminate|auto].
    + f_equal. auto.
  - inversion K' as [? ? ? S' D' NS'|? ? s' t' C'|? ? ? m m' S' L' O' H'|? ? m m' S' L' O' H'|? ? e e' N1' N2' E' H'|? ? e cn' c' kw' ? N1' O' C' E' H' K2|? ? e q' x' ? I' Q' H'];
      subst; try discriminate.
    + exfalso. eapply D'; reflexivity.
    + f_equal. pose proof (part_wf _ _ _ _ _ PA WF) as WD. inversion WD as [| | | | | | |? ND _| |]; subst.
      apply entries_eq; [rewrite E; auto|congruence|]. intros k y z Y Z. destruct (in_of_key k d) as [w Wi].
      { rewrite <- E. apply in_map_iff. exists (k, y). auto. }
      eapply IH; eauto. eapply part_app; eauto. econstructor; eauto. constructor.
    + exfalso. apply N2. apply in_map_iff. eexists. split; [|exact O']. reflexivity.
    + exfalso. apply N1. apply in_map_iff. eexists. split; [|exact I']. reflexivity.
  - pose proof (part_wf _ _ _ _ _ PA WF) as WD. inversion WD as [| | | | | | |? ND _| |]; subst.
    inversion K' as [? ? ? S' D' NS'|? ? s' t' C'|? ? ? m m' S' L' O' H'|? ? m m' S' L' O' H'|? ? e e' N1' N2' E' H'|? ? e cn' c' kw' ? N1' O' C' E' H' K2|? ? e q' x' ? I' Q' H'];
      subst; try discriminate.
    + exfalso. eapply D'; reflexivity.
    + exfalso. apply N2'. apply in_map_iff. eexists. split; [|exact O]. reflexivity.
    + apply (lookup_nodup _ _ _ ND) in O. apply (lookup_nodup _ _ _ ND) in O'. rewrite O in O'. injection O' as <-. rewrite C in C'. injection C' as <-.
      assert (kw = kw').
      { apply entries_eq; [rewrite E; apply NoDup_filter; auto|congruence|]. intros k y z Y Z. destruct (in_of_key k d) as [w Wi].
        { assert (I : In k (map fst kw)) by (apply in_map_iff; exists (k, y); auto). rewrite E in I. apply filter_In in I. apply I. }
        eapply IH; eauto. eapply part_app; eauto. econstructor; eauto. constructor. }
      subst. congruence.
    + exfalso. apply N1. apply in_map_iff. eexists. split; [|exact I']. reflexivity.
  - pose proof (part_wf _ _ _ _ _ PA WF) as WD. inversion WD as [| | | | | | |? ND _| |]; subst.
    inversion K' as [? ? ? S' D' NS'|? ? s' t' C'|? ? ? m m' S' L' O' H'|? ? m m' S' L' O' H'|? ? e e' N1' N2' E' H'|? ? e cn' c' kw' ? N1' O' C' E' H' K2|? ? e q' x' ? I' Q' H'];
      subst; try discriminate.
    + exfalso. eapply D'; reflexivity.
    + exfalso. apply N1'. apply in_map_iff. eexists. split; [|exact I]. reflexivity.
    + exfalso. apply N1'. apply in_map_iff. eexists. split; [|exact I]. reflexivity.
    + apply (lookup_nodup _ _ _ ND) in I. apply (lookup_nodup _ _ _ ND) in I'. rewrite I in I'. injection I' as E.
      apply full_inj in E; [|eapply part_segs; [apply keyed_root|eauto]..]. subst q'.
      rewrite (part_fun root q x' x keyed_root WF Q' Q) in H'. apply IH; auto.
Qed.
Lemma describes_mentioned p a x u : mentioned (full p) -> describes p a x u -> describes p false x u.
Proof.
  intros M D. inversion D as [? ? ? S' D' NS'|? ? s' t' C'|? ? ? m m' S' L' O' H'|? ? m m' S' L' O' H'|? ? e e' N1' N2' E' H'|? ? e cn' c' kw' ? N1' O' C' E' H' K2|? ? e q' x' ? I' Q' H']; subst.
  - apply de_leaf; auto.
  - apply de_str; auto.
  - eapply de_list; eauto.
  - contradiction.
  - apply de_dict; auto.
  - eapply de_obj; eauto.
  - eapply de_ref; eauto.
Qed.

(** ** What is already known *)
Definition memo_ok (memo : list (string * val)) : Prop :=
  forall t w, assoc t memo = Some w -> exists q x, t = full q /\ part root q x /\ describes q false x w /\ mentioned t.
Definition enough (memo : list (string * val)) (p : list string) : Prop :=
  (forall s, no_slash s -> mentioned (full (p ++ [s])) -> assoc (full (p ++ [s])) memo <> None)
  /\ (forall t, pointer root (full p) t -> assoc t memo <> None).

Lemma mentioned_up p s : mentioned (full (p ++ [s])) -> mentioned (full p).
Proof.
  intros [q [t [P H]]]. exists q, t. split; auto.
  assert (W : within (full p) (full (p ++ [s]))) by (rewrite full_app; right; exists s; reflexivity).
  destruct H; [left|right]; eapply within_trans; eauto.
Qed.
Lemma enough_unmentioned memo p : ~ mentioned (full p) -> enough memo p.
Proof.
  intros N. split.
  - intros s _ M. exfalso. apply N. eapply mentioned_up; eauto.
  - intros t P. exfalso. apply N. exists (full p), t. split; auto. left. left. reflexivity.
Qed.

Lemma filter_all {A} (l : list A) : List.filter (fun _ => true) l = l.
Proof. induction l; simpl; congruence. Qed.
Lemma subs_ok f path keep ann (d kw : list (key * val)) : NoDup (map fst d) -> map fst kw = List.filter keep (map fst d) ->
  (forall k y z, In (k, y) d -> In (k, z) kw -> f (slash path (str_key k)) (ann k) y = Ok z) -> subobjects str_key f path keep ann d = Ok kw.
Proof.
  revert kw. induction d as [|[k x] d IH]; intros kw ND E H; simpl in *.
  - destruct kw; [reflexivity|discriminate].
  - inversion ND as [|? ? NI ND']; subst. destruct (keep k).
    + destruct kw as [|[k' z] kw]; [discriminate|]. simpl in E. injection E as -> E. rewrite (H k x z) by (left; reflexivity). cbn [bind].
      rewrite (IH kw); auto. intros j y w Y W. apply H; right; auto.
    + apply IH; auto.
Qed.
Lemma des_ok memo x : memo_ok memo -> forall p a u, part root p x -> describes p a x u ->
  (assoc (full p) memo = None -> enough memo p /\ (a = false \/ ~ mentioned (full p))) -> deserialize memo (full p) a x = Ok u.
Proof.
  intros MO. induction x using val_ind'; intros p a u PA DE EN.
  all: destruct (assoc (full p) memo) as [w|] eqn:A;
    [destruct (MO _ _ A) as [q [x' [E [Q [DW M]]]]];
     apply full_inj in E; [|eapply part_segs; [apply keyed_root|eauto]..]; subst q;
     rewrite (part_fun root p x' _ keyed_root WF Q PA) in DW;
     match type of DW with describes _ _ ?v _ =>
       rewrite (describes_fun p false v u (describes_mentioned p a v u M DE) PA w DW); destruct v; simpl; rewrite A; reflexivity end|];
    specialize (EN eq_refl); destruct EN as [EN UM];
    assert (CH : forall s0 b, no_slash s0 -> assoc (full (p ++ [s0])) memo = None -> enough memo (p ++ [s0]) /\ (b = false \/ ~ mentioned (full (p ++ [s0]))))
      by (intros s0 b0 NS AN; assert (NM : ~ mentioned (full (p ++ [s0]))) by (intros M; apply (proj1 EN s0 NS M); exact AN); split; auto; apply enough_unmentioned; auto);
    cbn [SerialModel.deserialize]; rewrite A.
  all: inversion DE as [? ? ? S' D' NS'|? ? s' t' C'|? ? ? m m' S' L' O' H'|? ? m m' S' L' O' H'|? ? e e' N1' N2' E' H'|? ? e cn' c' kw' ? N1' O' C' E' H' K2|? ? e q' x' ? I' Q' H'];
    subst; try discriminate; auto; try (exfalso; first [eapply NS'; reflexivity|eapply D'; reflexivity]).
  1: rewrite C'; reflexivity.
  1,2,3,4: simpl in S'; injection S' as <-;
    assert (EL : elements (deserialize memo) str_nat (full p) O l = Ok m');
    [apply elements_ok; split; auto; intros j y Y; assert (J : j < length l) by (apply nth_error_Some; congruence);
     destruct (nth_error m' j) as [z|] eqn:Z; [|apply nth_error_None in Z; lia]; exists z; split; auto; simpl;
     rewrite <- full_app; rewrite Forall_forall in H; apply (H y (nth_error_In _ _ Y)); auto;
     apply (part_app _ _ _ _ [str_nat j] PA); eapply pa_elt; [reflexivity|exact Y|constructor]
    |rewrite EL; simpl; try reflexivity; destruct a; auto; exfalso; destruct O', UM; auto; discriminate].
  1,2,3: pose proof (part_wf _ _ _ _ _ PA WF) as WD; inversion WD as [| | | | | | |? ND _| |]; subst;
    assert (KEY : forall k y, ~ In (KStr "$ref") (map fst d) -> In (k, y) d -> part root (p ++ [str_key k]) y)
      by (intros k y NR Y; apply (part_app _ _ _ _ [str_key k] PA); apply (pa_key _ _ d k y [] y NR Y); constructor).
  - assert (LR : lookup (KStr "$ref") d = None).
    { destruct (lookup (KStr "$ref") d) eqn:L; auto. exfalso. apply N1'. apply lookup_In in L. apply in_map_iff. eexists. split; [|exact L]. reflexivity. }
    assert (LO : lookup (KStr "object_class") d = None).
    { destruct (lookup (KStr "object_class") d) eqn:L; auto. exfalso. apply N2'. apply lookup_In in L. apply in_map_iff. eexists. split; [|exact L]. reflexivity. }
    rewrite LR, LO.
    assert (SO : subobjects str_key (deserialize memo) (full p) (fun _ => true) (fun _ => false) d = Ok e').
    { apply subs_ok; auto; [rewrite filter_all; auto|]. intros k y z Y Z. rewrite <- full_app. rewrite Forall_forall in H.
      apply (H (k, y) Y); [apply (KEY k y N1' Y)|exact (H' k y z Y Z)|]. apply CH. destruct (part_named p _ d k PA eq_refl N1' (in_fst _ _ _ Y)) as [s0 [-> NS]].
      rewrite str_key_str. auto. }
    rewrite SO. reflexivity.
  - assert (LR : lookup (KStr "$ref") d = None).
    { destruct (lookup (KStr "$ref") d) eqn:L; auto. exfalso. apply N1'. apply lookup_In in L. apply in_map_iff. eexists. split; [|exact L]. reflexivity. }
    rewrite LR, (proj2 (lookup_nodup _ _ _ ND) O'), C'. cbn [bind].
    assert (SO : subobjects str_key (deserialize memo) (full p) (fun k => key_within k (arguments c'))
                   (fun k => match k with KStr s => tuple_annotated c' s | _ => false end) d = Ok kw').
    { apply subs_ok; auto. intros k y z Y Z. rewrite <- full_app. rewrite Forall_forall in H.
      apply (H (k, y) Y); [apply (KEY k y N1' Y)|exact (H' k y z Y Z)|]. apply CH. destruct (part_named p _ d k PA eq_refl N1' (in_fst _ _ _ Y)) as [s0 [-> NS]].
      rewrite str_key_str. auto. }
    rewrite SO. cbn [bind]. exact K2.
  - rewrite (proj2 (lookup_nodup _ _ _ ND) I'). destruct (assoc (full q') memo) as [w|] eqn:AQ.
    + destruct (MO _ _ AQ) as [q [x [E [Q [DW M]]]]]. apply full_inj in E; [|eapply part_segs; [apply keyed_root|eauto]..]. subst q.
      rewrite (part_fun root q' x x' keyed_root WF Q Q') in DW. rewrite (describes_fun q' false x' u H' Q' w DW). reflexivity.
    + exfalso. apply (proj2 EN (full q')); auto. exists p, d. auto.
Qed.

(** ** One node after the other *)
Variable sort : list string -> list (string * string) -> option (list string).
Hypothesis SORT : sorts sort.
Notation dereference := (dereference str_key str_nat int_of isdigit sort class_named find_class arguments tuple_annotated construct).
Hypothesis POK : pointers_ok root.
Hypothesis ROOTED : rooted str_key str_nat root.
Hypothesis DIRECT : direct str_key str_nat root.
Hypothesis ACYCLIC : ~ exists x, clos_trans _ (depends root) x x.
Hypothesis ALL : forall m, mentioned m -> m <> "#" -> exists q x u, m = full q /\ part root q x /\ describes q false x u.

Lemma assoc_cons {A} m t (x : A) memo : assoc m ((t, x) :: memo) = if String.eqb m t then Some x else assoc m memo.
Proof. reflexivity. Qed.
Lemma split_once {A} (x : A) a b c d : NoDup (a ++ x :: b) -> a ++ x :: b = c ++ x :: d -> a = c.
Proof.
  revert c. induction a as [|y a IH]; intros [|z c] ND E; simpl in *; auto; injection E as E1 E2.
  - subst z. exfalso. inversion ND as [|? ? NI _]; subst. apply NI. apply in_or_app. right. left. reflexivity.
  - subst y. exfalso. inversion ND as [|? ? NI _]; subst. apply NI. apply in_or_app. right. left. reflexivity.
  - f_equal; auto. apply IH; auto. inversion ND; auto.
Qed.
Lemma deref_ok n : deep_enough str_key str_nat n root ->
  exists memo, dereference n root = Ok memo /\ memo_ok memo /\ (forall m, mentioned m -> m <> "#" -> assoc m memo <> None) /\ assoc "#" memo = None.
Proof using All.
  intros DE. unfold DerefModel.dereference.
  destruct (order_total str_key str_nat sort SORT n root WF POK ROOTED DE DIRECT ACYCLIC) as [order O]. rewrite O. cbn [bind].
  destruct (order_ok str_key str_nat sort SORT n root order WF O) as [ND [NR [CO [BE [_ ME]]]]]. specialize (ME DIRECT).
  match goal with |- exists memo, foldM ?f order [] = _ /\ _ => set (F := f) end.
  assert (LOOP : forall todo done memo, order = done ++ todo -> memo_ok memo ->
            (forall m, assoc m memo <> None <-> In m (map fst done)) ->
            exists memo', foldM F todo memo = Ok memo' /\ memo_ok memo' /\ forall m, assoc m memo' <> None <-> In m (map fst order)).
  { induction todo as [|[m r] todo IH]; intros done memo E MO DO.
    - exists memo. rewrite app_nil_r in E. subst done. simpl. auto.
    - destruct (ME m r) as [MM ->]; [rewrite E; apply in_or_app; right; left; reflexivity|].
      assert (MR : m <> "#").
      { intros ->. apply NR. rewrite E, map_app. apply in_or_app. right. left. reflexivity. }
      destruct (ALL m MM MR) as [q [x [u [-> [PQ DQ]]]]].
      assert (QN : q <> []) by (intros ->; apply MR; reflexivity).
      assert (EN : enough memo q).
      { assert (DEP : forall b, depends root (full q) b -> assoc b memo <> None).
        { intros b D. apply DO. destruct (BE _ _ D MR) as [_ BB]. rewrite E, map_app in ND, BB. simpl in ND, BB.
          assert (NQ : ~ In (full q) (map fst done)).
          { intros I. apply NoDup_remove_2 in ND. apply ND. apply in_or_app. auto. }
          clear - ND BB NQ. destruct BB as [l1 [l2 [l3 EQ]]].
          assert (EQ2 : map fst done ++ full q :: map fst todo = (l1 ++ b :: l2) ++ full q :: l3) by (rewrite EQ, <- app_assoc; reflexivity).
          assert (EQ3 : map fst done = l1 ++ b :: l2).
          { eapply split_once; [|exact EQ2]. exact ND. }
          rewrite EQ3. apply in_or_app. right. left. reflexivity. }
        split.
        - intros s NS M. apply DEP. right. split; auto. exists s. split; auto. apply full_app.
        - intros t P. apply DEP. left. auto. }
      cbn [foldM]. unfold F at 1. cbn [fst snd]. rewrite (get_ok q x PQ QN). cbn [bind].
      rewrite (des_ok memo x MO q false u PQ DQ) by auto. cbn [bind].
      apply (IH (done ++ [(full q, None)]) ((full q, u) :: memo)).
      + rewrite <- app_assoc. exact E.
      + intros t w A. rewrite assoc_cons in A. destruct (String.eqb_spec t (full q)) as [->|D]; [|apply MO; auto].
        injection A as <-. exists q, x. auto.
      + intros t. rewrite assoc_cons, map_app, in_app_iff. simpl. destruct (String.eqb_spec t (full q)) as [->|D].
        * split; auto. discriminate.
        * rewrite (DO t). split; auto. intros [H|[H|[]]]; auto. congruence. }
  destruct (LOOP order [] [] eq_refl) as [memo [FO [MO DO]]].
  - intros t w A. discriminate.
  - simpl. tauto.
  - exists memo. split; auto. split; auto. split.
    + intros m M N. apply DO. apply CO; auto.
    + destruct (assoc "#" memo) eqn:A; auto. exfalso. apply NR. apply DO. congruence.
Qed.
Notation dict_to_object := (dict_to_object str_key str_nat int_of isdigit sort class_named find_class arguments tuple_annotated construct).
Lemma dict_to_object_ok n u : deep_enough str_key str_nat n root -> describes [] false root u -> dict_to_object n root = Ok u.
Proof using All.
  intros DE D. unfold DerefModel.dict_to_object. destruct (deref_ok n DE) as [memo [E [MO [EN NR]]]]. rewrite E. cbn [bind].
  apply (des_ok memo root MO [] false u); auto; [constructor|]. intros _. split; auto. split.
  - intros s NS M. apply EN; auto. intros H. apply (f_equal PathsModel.split) in H. rewrite split_full in H by (simpl; constructor; auto; constructor).
    discriminate.
  - intros t P. apply EN.
    + exists (full []), t. split; auto. right. left. reflexivity.
    + intros ->. apply ACYCLIC. exists "#". apply t_step. left. exact P.
Qed.
End Follow.

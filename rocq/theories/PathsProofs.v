(** Lemmas on paths. *)
From Coq Require Import ZArith Lia Bool String Ascii List.
From Verif Require Import Base BaseProofs PyValue PathsModel PathsSpec.
Import ListNotations.
Open Scope string_scope.
Open Scope list_scope.

(** ** Strings *)
Lemma split_nonempty s : exists x l, PathsModel.split s = x :: l.
Proof.
  induction s as [|c s [x [l E]]]; simpl; eauto. rewrite E. destruct (Ascii.eqb c "/"); eauto.
Qed.
Lemma split_no_slash s : no_slash s -> PathsModel.split s = [s].
Proof.
  unfold no_slash. induction s as [|c s IH]; simpl; auto. intros H. destruct (Ascii.eqb_spec c "/") as [->|D].
  - exfalso. apply H. auto.
  - rewrite IH; auto.
Qed.
Lemma split_slash s r : no_slash s -> PathsModel.split (s ++ String "/" r)%string = s :: PathsModel.split r.
Proof.
  unfold no_slash. induction s as [|c s IH]; intros H; [reflexivity|]. simpl in H. simpl. destruct (Ascii.eqb_spec c "/") as [->|D].
  - exfalso. apply H. auto.
  - rewrite IH by auto. reflexivity.
Qed.
Lemma concat_cons a b l : String.concat "/" (a :: b :: l) = (a ++ String "/" (String.concat "/" (b :: l)))%string.
Proof. reflexivity. Qed.
Lemma split_concat segs : segs <> [] -> Forall no_slash segs -> PathsModel.split (String.concat "/" segs) = segs.
Proof.
  induction segs as [|a segs IH]; intros N F; [contradiction|]. inversion F; subst. destruct segs as [|b segs].
  - simpl. apply split_no_slash. auto.
  - rewrite concat_cons, split_slash by auto. rewrite IH by (auto; discriminate). reflexivity.
Qed.

(** prefixes that [lstrip] removes, ending with a slash *)
Fixpoint stripped (s : string) : bool :=
  match s with EmptyString => true | String c s' => (Ascii.eqb c "#" || Ascii.eqb c "/") && stripped s' end.
Lemma lstrip_stripped p s : stripped p = true -> lstrip (p ++ s)%string = lstrip s.
Proof.
  induction p as [|c p IH]; simpl; auto. intros H. apply andb_true_iff in H. destruct H as [H1 H2]. rewrite H1. auto.
Qed.
Lemma lstrip_good segs : good_segments segs -> lstrip (String.concat "/" segs) = String.concat "/" segs.
Proof.
  intros [_ [c [s [rest [-> [D1 D2]]]]]].
  assert (E : exists r, String.concat "/" (String c s :: rest) = String c r) by (destruct rest; simpl; eauto).
  destruct E as [r ->]. simpl. apply Ascii.eqb_neq in D1, D2. rewrite D1, D2. reflexivity.
Qed.
Lemma good_nonempty segs : good_segments segs -> segs <> [].
Proof. intros [_ [c [s [rest [-> _]]]]]. discriminate. Qed.

Lemma segments_good p segs : stripped p = true -> good_segments segs -> segments (p ++ String.concat "/" segs)%string = segs.
Proof.
  intros P G. unfold segments. rewrite lstrip_stripped, lstrip_good by auto. apply split_concat; [apply good_nonempty; auto|apply G].
Qed.
Lemma segments_path segs : good_segments segs -> segments (path_of segs) = segs.
Proof. intros G. apply (segments_good "#/"); auto. Qed.

(** the raw last segment *)
Lemma split_slash_any a r : exists l, PathsModel.split (a ++ String "/" r)%string = l ++ PathsModel.split r.
Proof.
  induction a as [|c a [l E]]; simpl.
  - exists [""]. reflexivity.
  - rewrite E. destruct (Ascii.eqb c "/"); [exists ("" :: l); reflexivity|].
    destruct (split_nonempty r) as [x [m Er]]. destruct l as [|y l]; simpl.
    + rewrite Er in *. exists []. simpl. exfalso.
      assert (L : length (PathsModel.split (a ++ String "/" r)%string) = S (length (PathsModel.split r) + 0) \/ True) by auto.
      clear L. assert (G : forall b q, (length (PathsModel.split q) < length (PathsModel.split (b ++ String "/" q)%string))%nat).
      { clear. induction b as [|c b IH]; intros q; simpl; [lia|]. specialize (IH q).
        destruct (split_nonempty (b ++ String "/" q)) as [x [l E]]. rewrite E in *. destruct (Ascii.eqb c "/"); simpl in *; lia. }
      specialize (G a r). rewrite E, Er in G. simpl in G. lia.
    + exists (String c y :: l). reflexivity.
Qed.
Lemma last_app_ne {A} (l m : list A) d : m <> [] -> last (l ++ m) d = last m d.
Proof.
  intros N. induction l as [|x l IH]; simpl; auto. destruct (l ++ m) eqn:E; auto.
  apply app_eq_nil in E. destruct E. contradiction.
Qed.
Lemma last_segment p segs : p = "" \/ (exists a, p = (a ++ "/")%string) -> good_segments segs ->
  last (PathsModel.split (p ++ String.concat "/" segs)%string) "" = last segs "".
Proof.
  intros [->|[a ->]] G; pose proof (good_nonempty _ G) as N; destruct G as [F _].
  - simpl. rewrite split_concat by auto. reflexivity.
  - assert (E : ((a ++ "/") ++ String.concat "/" segs = a ++ String "/" (String.concat "/" segs))%string).
    { clear. induction a; simpl; congruence. }
    rewrite E. destruct (split_slash_any a (String.concat "/" segs)) as [l ->]. rewrite split_concat by auto.
    apply last_app_ne. auto.
Qed.

Lemma good_init init s : good_segments (init ++ [s]) -> init = [] \/ good_segments init.
Proof.
  intros [F [c [t [rest [E [D1 D2]]]]]]. destruct init as [|a init]; auto. right. apply Forall_app in F. destruct F as [F _].
  split; auto. simpl in E. inversion E; subst. exists c, t, init. auto.
Qed.
Lemma reduced_empty init : init = [] \/ good_segments init -> String.eqb (String.concat "/" init) "" = true <-> init = [].
Proof.
  intros [->|G]; [simpl; tauto|]. destruct G as [_ [c [s [rest [-> _]]]]]. split; [|discriminate].
  assert (E : exists r, String.concat "/" (String c s :: rest) = String c r) by (destruct rest; simpl; eauto).
  destruct E as [r ->]. simpl. discriminate.
Qed.

(** ** Positions *)
Lemma py_index_iff n z i : py_index n z = Some i <-> (i < n)%nat /\ (z = Z.of_nat i \/ z = Z.of_nat i - Z.of_nat n)%Z.
Proof.
  unfold py_index. destruct (0 <=? z)%Z eqn:E1.
  - apply Z.leb_le in E1. destruct (z <? Z.of_nat n)%Z eqn:E2.
    + apply Z.ltb_lt in E2. split.
      * intros H. inversion H. split; lia.
      * intros [L [->| ->]]; [f_equal; lia|lia].
    + apply Z.ltb_ge in E2. split; [discriminate|]. intros [L [?|?]]; lia.
  - apply Z.leb_gt in E1. destruct (- Z.of_nat n <=? z)%Z eqn:E2.
    + apply Z.leb_le in E2. split.
      * intros H. inversion H. split; lia.
      * intros [L [->| ->]]; [lia|f_equal; lia].
    + apply Z.leb_gt in E2. split; [discriminate|]. intros [L [?|?]]; lia.
Qed.
Lemma update_length {A} i (x : A) l : length (update_nth i x l) = length l.
Proof. revert i. induction l; intros [|i]; simpl; auto. Qed.
Lemma update_same {A} i (x : A) l : (i < length l)%nat -> nth_error (update_nth i x l) i = Some x.
Proof. revert i. induction l; intros [|i] H; simpl in *; try lia; auto. apply IHl. lia. Qed.
Lemma update_other {A} i j (x : A) l : i <> j -> nth_error (update_nth i x l) j = nth_error l j.
Proof. revert i j. induction l; intros [|i] [|j] H; simpl; auto; try lia. Qed.
Lemma update_twice {A} i (x y : A) l : update_nth i y (update_nth i x l) = update_nth i y l.
Proof. revert i. induction l; intros [|i]; simpl; auto. f_equal. auto. Qed.
Lemma set_key_twice {A} k (x y : A) d : set_key k y (set_key k x d) = set_key k y d.
Proof.
  induction d as [|[j z] d IH]; simpl.
  - rewrite key_eqb_refl. reflexivity.
  - destruct (key_eqb k j) eqn:E; simpl; [rewrite key_eqb_refl; auto|rewrite E, IH; auto].
Qed.

Section P.
Variable int_of : string -> option Z.
Variable isdigit : string -> bool.
Notation find := (find int_of isdigit).
Notation write := (write int_of).
Notation get_at := (get_at int_of isdigit).
Notation picks := (picks int_of isdigit).
Notation leads := (leads int_of isdigit).
Notation slot := (slot int_of isdigit).
Notation target := (target int_of isdigit).
Notation get_in := (get_in_object_from_path int_of isdigit).
Notation set_in := (set_in_object_from_path int_of isdigit).

Lemma find_seq v l s : seq_of v = Some l -> find v s =
  match int_of s with
  | None => Err ExtractionError
  | Some z => match py_index (length l) z with
              | Some i => let* w := of_option IndexError (nth_error l i) in Ok (Idx i, w)
              | None => Err IndexError
              end
  end.
Proof. intros S. destruct v; simpl in S; inversion S; reflexivity. Qed.

Lemma picks_seq v l s st w : seq_of v = Some l ->
  (picks v s st w <-> exists i z, st = Idx i /\ int_of s = Some z /\ py_index (length l) z = Some i /\ nth_error l i = Some w).
Proof.
  intros S. split.
  - intros K. inversion K as [v0 l0 s0 i w0 S0 I N|v0 l0 s0 i w0 S0 I N|d s0 w0 M|d s0 z w0 M D I M'|c d s0 w0 M]; subst.
    + assert (l0 = l) by congruence. subst. assert (L : (i < length l)%nat) by (apply nth_error_Some; congruence).
      exists i, (Z.of_nat i). repeat split; auto. apply py_index_iff; auto.
    + assert (l0 = l) by congruence. subst. assert (L : (i < length l)%nat) by (apply nth_error_Some; congruence).
      exists i, (Z.of_nat i - Z.of_nat (length l))%Z. repeat split; auto. apply py_index_iff; auto.
    + discriminate.
    + discriminate.
    + discriminate.
  - intros [i [z [-> [I [P N]]]]]. apply py_index_iff in P. destruct P as [_ [->| ->]]; [eapply pk_front; eauto|eapply pk_back; eauto].
Qed.
Lemma picks_dict d s st w : picks (VDict d) s st w <->
  (st = Item (KStr s) /\ In (KStr s, w) d)
  \/ (exists z, st = Item (KInt z) /\ ~ In (KStr s) (map fst d) /\ isdigit s = true /\ int_of s = Some z /\ In (KInt z, w) d).
Proof.
  split.
  - intros K. inversion K as [v0 l0 s0 i w0 S0 I N|v0 l0 s0 i w0 S0 I N|d0 s0 w0 M|d0 s0 z w0 M D I M'|c d0 s0 w0 M]; subst; try discriminate; auto.
    right. exists z. auto.
  - intros [[-> M]|[z [-> [A [B [C D]]]]]]; [constructor; auto|apply pk_int; auto].
Qed.
Lemma picks_obj c d s st w : picks (VObj c d) s st w <-> st = Item (KStr s) /\ In (KStr s, w) d.
Proof.
  split.
  - intros K. inversion K as [v0 l0 s0 i w0 S0 I N|v0 l0 s0 i w0 S0 I N|d0 s0 w0 M|d0 s0 z w0 M D I M'|c0 d0 s0 w0 M]; subst; try discriminate; auto.
  - intros [-> M]. constructor. auto.
Qed.
Lemma in_fst {A} (k : key) (w : A) d : In (k, w) d -> In k (map fst d).
Proof. intros H. apply in_map_iff. exists (k, w). auto. Qed.

Lemma find_picks v s st w : wf_val v -> (find v s = Ok (st, w) <-> picks v s st w).
Proof.
  intros W. destruct (seq_of v) as [l|] eqn:S.
  - rewrite (find_seq v l s S), (picks_seq v l s st w S). split.
    + destruct (int_of s) as [z|] eqn:I; [|discriminate]. destruct (py_index (length l) z) as [i|] eqn:P; [|discriminate].
      destruct (nth_error l i) as [u|] eqn:N; simpl; [|discriminate]. intros E; inversion E; subst. exists i, z. auto.
    + intros [i [z [-> [I [P N]]]]]. rewrite I, P, N. reflexivity.
  - destruct v; simpl in S; try discriminate.
    all: try (split; [discriminate|intros K; inversion K; subst; simpl in *; discriminate]).
    + assert (ND : NoDup (map fst d)) by (inversion W; auto). rewrite picks_dict. cbn [PathsModel.find].
      destruct (lookup (KStr s) d) as [u|] eqn:L.
      * split.
        -- intros E; inversion E; subst. left. split; auto. apply lookup_In; auto.
        -- intros [[-> M]|[z [-> [M _]]]].
           ++ apply (lookup_nodup (KStr s) w d) in M; auto. congruence.
           ++ exfalso. apply M. apply lookup_In in L. eapply in_fst; eauto.
      * apply lookup_None in L. destruct (isdigit s) eqn:D.
        -- destruct (int_of s) as [z|] eqn:I.
           ++ destruct (lookup (KInt z) d) as [u|] eqn:Lz; simpl.
              ** split.
                 --- intros E; inversion E; subst. right. exists z. repeat split; auto. apply lookup_In; auto.
                 --- intros [[-> M]|[z0 [-> [_ [_ [Z M]]]]]]; [exfalso; apply L; eapply in_fst; eauto|].
                     assert (z0 = z) by congruence. subst. apply (lookup_nodup (KInt z) w d) in M; auto. congruence.
              ** split; [discriminate|]. intros [[-> M]|[z0 [-> [_ [_ [Z M]]]]]]; [exfalso; apply L; eapply in_fst; eauto|].
                 assert (z0 = z) by congruence. subst. apply (lookup_nodup (KInt z) w d) in M; auto. congruence.
           ++ split; [discriminate|]. intros [[-> M]|[z0 [-> [_ [_ [Z M]]]]]]; [exfalso; apply L; eapply in_fst; eauto|discriminate].
        -- split; [destruct (tuple_like s); discriminate|]. intros [[-> M]|[z0 [-> [_ [Z _]]]]]; [exfalso; apply L; eapply in_fst; eauto|discriminate].
    + assert (ND : NoDup (map fst attrs)) by (inversion W; auto). rewrite picks_obj. cbn [PathsModel.find].
      destruct (lookup (KStr s) attrs) as [u|] eqn:L; simpl.
      * split.
        -- intros E; inversion E; subst. split; auto. apply lookup_In; auto.
        -- intros [-> M]. apply (lookup_nodup (KStr s) w attrs) in M; auto. congruence.
      * split; [discriminate|]. intros [-> M]. apply lookup_None in L. exfalso. apply L. eapply in_fst; eauto.
Qed.

Lemma find_child v s st w : find v s = Ok (st, w) -> child v st = Some w.
Proof.
  destruct v; simpl; try discriminate.
  - destruct (int_of s) as [z|]; [|discriminate]. destruct (py_index (length l) z) as [i|]; [|discriminate].
    destruct (nth_error l i) eqn:N; simpl; [|discriminate]. intros E; inversion E; subst. exact N.
  - destruct (int_of s) as [z|]; [|discriminate]. destruct (py_index (length l) z) as [i|]; [|discriminate].
    destruct (nth_error l i) eqn:N; simpl; [|discriminate]. intros E; inversion E; subst. exact N.
  - destruct (lookup (KStr s) d) eqn:L; [intros E; inversion E; subst; exact L|].
    destruct (isdigit s); [|destruct (tuple_like s); discriminate].
    destruct (int_of s) as [z|]; [|discriminate]. destruct (lookup (KInt z) d) eqn:Lz; simpl; [|discriminate].
    intros E; inversion E; subst. exact Lz.
  - destruct (lookup (KStr s) attrs) eqn:L; simpl; [|discriminate]. intros E; inversion E; subst. exact L.
Qed.

Lemma child_wf v st w : wf_val v -> child v st = Some w -> wf_val w.
Proof.
  intros W C. inversion W; subst; destruct st; simpl in C; try discriminate.
  - rewrite Forall_forall in H. apply H. eapply nth_error_In; eauto.
  - rewrite Forall_forall in H. apply H. eapply nth_error_In; eauto.
  - rewrite Forall_forall in H0. apply lookup_In in C. apply (H0 _ C).
  - rewrite Forall_forall in H1. apply lookup_In in C. apply (H1 _ C).
Qed.

Lemma find_put_same v s st w w' : find v s = Ok (st, w) -> find (put v st w') s = Ok (st, w').
Proof.
  destruct v; simpl; try discriminate.
  - destruct (int_of s) as [z|] eqn:I; [|discriminate]. destruct (py_index (length l) z) as [i|] eqn:P; [|discriminate].
    destruct (nth_error l i) eqn:N; simpl; [|discriminate]. intros E; inversion E; subst. simpl. rewrite I, update_length, P.
    rewrite update_same; auto. apply py_index_iff in P. tauto.
  - destruct (int_of s) as [z|] eqn:I; [|discriminate]. destruct (py_index (length l) z) as [i|] eqn:P; [|discriminate].
    destruct (nth_error l i) eqn:N; simpl; [|discriminate]. intros E; inversion E; subst. simpl. rewrite I, update_length, P.
    rewrite update_same; auto. apply py_index_iff in P. tauto.
  - destruct (lookup (KStr s) d) eqn:L.
    + intros E; inversion E; subst. simpl. rewrite lookup_set_same. reflexivity.
    + destruct (isdigit s) eqn:D; [|destruct (tuple_like s); discriminate].
      destruct (int_of s) as [z|] eqn:I; [|discriminate]. destruct (lookup (KInt z) d) eqn:Lz; simpl; [|discriminate].
      intros E; inversion E; subst. simpl. rewrite lookup_set_other by discriminate. rewrite L, D, I, lookup_set_same. reflexivity.
  - destruct (lookup (KStr s) attrs) eqn:L; simpl; [|discriminate]. intros E; inversion E; subst. simpl.
    rewrite lookup_set_same. reflexivity.
Qed.

Lemma find_put_other v s st w st' u x : find v s = Ok (st, w) -> child v st' = Some u -> st' <> st -> find (put v st' x) s = Ok (st, w).
Proof.
  intros F C D. destruct v; simpl in F; try discriminate.
  - destruct st'; simpl in C; [|discriminate]. simpl. rewrite update_length.
    destruct (int_of s) as [z|]; [|discriminate]. destruct (py_index (length l) z) as [j|]; [|discriminate].
    destruct (nth_error l j) eqn:N; simpl in F; [|discriminate]. inversion F; subst.
    rewrite update_other by congruence. rewrite N. reflexivity.
  - destruct st'; simpl in C; [|discriminate]. simpl. rewrite update_length.
    destruct (int_of s) as [z|]; [|discriminate]. destruct (py_index (length l) z) as [j|]; [|discriminate].
    destruct (nth_error l j) eqn:N; simpl in F; [|discriminate]. inversion F; subst.
    rewrite update_other by congruence. rewrite N. reflexivity.
  - destruct st' as [|k]; simpl in C; [discriminate|]. simpl. destruct (lookup (KStr s) d) eqn:L.
    + inversion F; subst. rewrite lookup_set_other by congruence. rewrite L. reflexivity.
    + assert (K : k <> KStr s) by congruence. rewrite lookup_set_other by congruence. rewrite L.
      destruct (isdigit s); [|destruct (tuple_like s); discriminate].
      destruct (int_of s) as [z|]; [|discriminate]. destruct (lookup (KInt z) d) eqn:Lz; simpl in F; [|discriminate].
      inversion F; subst. rewrite lookup_set_other by congruence. rewrite Lz. reflexivity.
  - destruct st' as [|k]; simpl in C; [discriminate|]. simpl. destruct (lookup (KStr s) attrs) eqn:L; simpl in F; [|discriminate].
    inversion F; subst. rewrite lookup_set_other by congruence. rewrite L. reflexivity.
Qed.

Lemma put_twice v st x y : put (put v st x) st y = put v st y.
Proof. destruct v, st; simpl; auto; rewrite ?update_twice, ?set_key_twice; auto. Qed.

(** ** Walking without references *)
Fixpoint walk (v : val) (segs : list string) : res (list step * val) :=
  match segs with
  | [] => Ok ([], v)
  | s :: segs' => let* sw := find v s in let* r := walk (snd sw) segs' in Ok (fst sw :: fst r, snd r)
  end.

Lemma walk_fold ep n root segs : forall loc v, (ep = true -> ref_free v) ->
  foldM (fun (lv : list step * val) s =>
     let* lv' := match snd lv with
                 | VDict d =>
                   if ep then
                     match lookup ref_marker d with
                     | None => Ok lv
                     | Some (VStr t) => get_at n true root (segments t)
                     | Some _ => Err AttributeError
                     end
                   else Ok lv
                 | _ => Ok lv
                 end in
     let* sw := find (snd lv') s in
     Ok (fst lv' ++ [fst sw], snd sw)) segs (loc, v)
  = (let* r := walk v segs in Ok (loc ++ fst r, snd r)).
Proof.
  induction segs as [|s segs IH]; intros loc v RF.
  - simpl. rewrite app_nil_r. reflexivity.
  - cbn [foldM walk snd].
    assert (E : match v with
                 | VDict d =>
                   if ep then
                     match lookup ref_marker d with
                     | None => Ok (loc, v)
                     | Some (VStr t) => get_at n true root (segments t)
                     | Some _ => Err AttributeError
                     end
                   else Ok (loc, v)
                 | _ => Ok (loc, v)
                 end = Ok (loc, v)).
    { destruct v; auto. destruct ep; auto. assert (L : lookup ref_marker d = None).
      { apply lookup_None. specialize (RF eq_refl). inversion RF; subst. apply H0. reflexivity. }
      rewrite L. reflexivity. }
    rewrite E. cbn [bind snd fst]. destruct (find v s) as [[st w]|e] eqn:F; cbn [bind]; auto. cbn [fst snd].
    rewrite IH.
    + destruct (walk w segs) as [[l u]|e]; simpl; auto. rewrite <- app_assoc. reflexivity.
    + intros ->. specialize (RF eq_refl). apply find_child in F. clear - RF F. unfold ref_free in *.
      destruct v, st; simpl in F; try discriminate; inversion RF; subst.
      * rewrite Forall_forall in H1. apply H1. eapply nth_error_In; eauto.
      * rewrite Forall_forall in H1. apply H1. eapply nth_error_In; eauto.
      * rewrite Forall_forall in H1. apply lookup_In in F. apply (H1 _ F).
      * rewrite Forall_forall in H2. apply lookup_In in F. apply (H2 _ F).
Qed.

Lemma get_walk ep n root segs : (ep = true -> ref_free root) -> get_at (S n) ep root segs = walk root segs.
Proof.
  intros RF. cbn [PathsModel.get_at]. rewrite (walk_fold ep n root segs [] root RF). simpl.
  destruct (walk root segs) as [[l u]|e]; reflexivity.
Qed.

Lemma walk_leads segs : forall v loc w, wf_val v -> (walk v segs = Ok (loc, w) <-> leads v segs loc w).
Proof.
  induction segs as [|s segs IH]; intros v loc w W; simpl.
  - split; [intros E; inversion E; constructor|intros L; inversion L; auto].
  - split.
    + destruct (find v s) as [[st u]|] eqn:F; simpl; [|discriminate]. destruct (walk u segs) as [[l x]|] eqn:K; simpl; [|discriminate].
      intros E; inversion E; subst. apply ld_down with u; [apply find_picks; auto|]. apply IH; auto.
      eapply child_wf; eauto. eapply find_child; eauto.
    + intros L. inversion L as [|v0 s0 st u segs0 l x K L']; subst. apply find_picks in K; auto. rewrite K. simpl.
      apply IH in L'; [rewrite L'; reflexivity|]. eapply child_wf; eauto. eapply find_child; eauto.
Qed.

Lemma walk_app a : forall v b, walk v (a ++ b) =
  (let* r := walk v a in let* q := walk (snd r) b in Ok (fst r ++ fst q, snd q)).
Proof.
  induction a as [|s a IH]; intros v b; simpl.
  - destruct (walk v b) as [[l u]|e]; reflexivity.
  - destruct (find v s) as [[st w]|e]; simpl; auto. rewrite IH. destruct (walk w a) as [[l u]|e]; simpl; auto.
    destruct (walk u b) as [[l' u']|e]; simpl; auto.
Qed.

(** ** Setting *)
Fixpoint set_at (v : val) (init : list string) (s : string) (x : val) : res val :=
  match init with
  | [] => write v s x
  | t :: init' => let* sw := find v t in let* w' := set_at (snd sw) init' s x in Ok (put v (fst sw) w')
  end.

Lemma set_walk init : forall v s x,
  (let* lv := walk v init in let* w := write (snd lv) s x in Ok (put_at v (fst lv) w)) = set_at v init s x.
Proof.
  induction init as [|t init IH]; intros v s x; simpl.
  - destruct (write v s x); reflexivity.
  - destruct (find v t) as [[st w]|e] eqn:F; simpl; auto. rewrite <- IH.
    destruct (walk w init) as [[l u]|e]; simpl; auto. destruct (write u s x) as [u'|e]; simpl; auto.
    rewrite (find_child _ _ _ _ F). reflexivity.
Qed.

Lemma set_in_at ep n root p init s x : (ep = true -> ref_free root) -> stripped p = true ->
  p = "" \/ (exists a, p = (a ++ "/")%string) -> good_segments (init ++ [s]) ->
  set_in (S n) root (p ++ String.concat "/" (init ++ [s]))%string x ep = set_at root init s x.
Proof.
  intros RF P Q G. unfold set_in_object_from_path. rewrite segments_good by auto. rewrite last_segment by auto.
  rewrite removelast_last, last_last. pose proof (good_init _ _ G) as GI. rewrite <- set_walk.
  destruct (String.eqb (String.concat "/" init) "") eqn:E.
  - apply (reduced_empty _ GI) in E. subst. reflexivity.
  - destruct GI as [->|GI]; [discriminate|]. 
    assert (SG : segments (String.concat "/" init) = init) by (apply (segments_good "" init); auto). rewrite SG. rewrite get_walk by auto. reflexivity.
Qed.

Lemma write_find v s x v' : write v s x = Ok v' -> exists st, slot v s st /\ find v' s = Ok (st, x).
Proof.
  destruct v; simpl; try discriminate.
  - destruct (int_of s) as [z|] eqn:I; [|discriminate]. destruct (py_index (length l) z) as [i|] eqn:P; [|discriminate].
    intros E; inversion E; subst. exists (Idx i). pose proof P as P'. apply py_index_iff in P. destruct P as [L D]. split.
    + destruct (nth_error l i) as [w|] eqn:N; [|apply nth_error_None in N; lia].
      apply sl_seq with w. destruct D as [->| ->]; [eapply pk_front; simpl; eauto|eapply pk_back; simpl; eauto].
    + simpl. rewrite I, update_length, P', update_same; auto.
  - destruct (int_of s); discriminate.
  - intros E; inversion E; subst. exists (Item (KStr s)). split; [constructor|]. simpl. rewrite lookup_set_same. reflexivity.
  - intros E; inversion E; subst. exists (Item (KStr s)). split; [constructor|]. simpl. rewrite lookup_set_same. reflexivity.
Qed.
Lemma slot_fun v s st st' : wf_val v -> slot v s st -> slot v s st' -> st = st'.
Proof.
  intros W H1 H2.
  assert (SQ : forall i w0 u k, picks v s (Idx i) w0 -> v = VDict u \/ v = VObj k u -> False).
  { intros i w0 u k K [->| ->]; [apply picks_dict in K; destruct K as [[? _]|[? [? _]]]; discriminate|apply picks_obj in K; destruct K; discriminate]. }
  inversion H1 as [v1 s1 i1 w1 K1|d1 s1|c1 d1 s1]; subst; inversion H2 as [v2 s2 i2 w2 K2|d2 s2|c2 d2 s2]; subst; auto.
  - apply find_picks in K1, K2; auto. congruence.
  - exfalso. eapply (SQ _ _ _ ""); eauto.
  - exfalso. eapply (SQ _ _ _ c2); eauto.
  - exfalso. eapply (SQ _ _ _ ""); eauto.
  - exfalso. eapply (SQ _ _ _ c1); eauto.
Qed.

Lemma set_get init : forall v s x v', set_at v init s x = Ok v' -> exists loc, walk v' (init ++ [s]) = Ok (loc, x).
Proof.
  induction init as [|t init IH]; intros v s x v' H; simpl in *.
  - apply write_find in H. destruct H as [st [_ F]]. rewrite F. simpl. eauto.
  - destruct (find v t) as [[st w]|e] eqn:F; simpl in H; [|discriminate].
    destruct (set_at w init s x) as [w'|e] eqn:E; simpl in H; [|discriminate]. inversion H; subst.
    rewrite (find_put_same _ _ _ _ w' F). simpl. destruct (IH _ _ _ _ E) as [loc L]. rewrite L. simpl. eauto.
Qed.

Lemma write_twice v s x y v' : write v s x = Ok v' -> write v' s y = write v s y.
Proof.
  destruct v; simpl; try discriminate.
  - destruct (int_of s) as [z|] eqn:I; [|discriminate]. destruct (py_index (length l) z) as [i|] eqn:P; [|discriminate].
    intros E; inversion E; subst. simpl. rewrite I, update_length, P, update_twice. reflexivity.
  - destruct (int_of s); discriminate.
  - intros E; inversion E; subst. simpl. rewrite set_key_twice. reflexivity.
  - intros E; inversion E; subst. simpl. rewrite set_key_twice. reflexivity.
Qed.
Lemma set_twice init : forall v s x y v', set_at v init s x = Ok v' -> set_at v' init s y = set_at v init s y.
Proof.
  induction init as [|t init IH]; intros v s x y v' H; simpl in *.
  - eapply write_twice; eauto.
  - destruct (find v t) as [[st w]|e] eqn:F; simpl in H; [|discriminate].
    destruct (set_at w init s x) as [w'|e] eqn:E; simpl in H; [|discriminate]. inversion H; subst.
    rewrite (find_put_same _ _ _ _ w' F). simpl. rewrite (IH _ _ _ _ _ E). destruct (set_at w init s y); simpl; auto.
    rewrite put_twice. reflexivity.
Qed.

Lemma set_above q : forall v init s x v' lq w, set_at v (q ++ init) s x = Ok v' -> walk v q = Ok (lq, w) ->
  exists w', set_at w init s x = Ok w' /\ walk v' q = Ok (lq, w').
Proof.
  induction q as [|t q IH]; intros v init s x v' lq w H K; simpl in *.
  - inversion K; subst. eauto.
  - destruct (find v t) as [[st u]|e] eqn:F; simpl in *; [|discriminate].
    destruct (walk u q) as [[l u2]|e] eqn:WQ; simpl in K; [|discriminate]. inversion K; subst.
    destruct (set_at u (q ++ init) s x) as [u'|e] eqn:E; simpl in H; [|discriminate]. inversion H; subst.
    destruct (IH _ _ _ _ _ _ _ E WQ) as [w' [S1 S2]]. exists w'. split; auto.
    rewrite (find_put_same _ _ _ _ u' F). simpl. rewrite S2. reflexivity.
Qed.

(** one level: other segments *)
Lemma write_other v s x v' t st w st' : write v s x = Ok v' -> slot v s st' -> find v t = Ok (st, w) -> st <> st' ->
  (s = t -> find v s = Ok (st, w) -> st = st') -> wf_val v -> find v' t = Ok (st, w).
Proof.
  intros H S F D A W. destruct v; simpl in H; try discriminate.
  - destruct (int_of s) as [z|] eqn:I; [|discriminate]. destruct (py_index (length l) z) as [i|] eqn:P; [|discriminate].
    inversion H; subst. assert (st' = Idx i).
    { apply (slot_fun _ _ _ _ W S). destruct (nth_error l i) as [u|] eqn:N.
      - apply sl_seq with u. apply find_picks; auto. simpl. rewrite I, P, N. reflexivity.
      - apply nth_error_None in N. apply py_index_iff in P. lia. }
    subst. pose proof P as P'. apply py_index_iff in P. destruct P as [Li _].
    destruct (nth_error l i) as [u|] eqn:N; [|apply nth_error_None in N; lia].
    apply (find_put_other (VList l) t st w (Idx i) u x F); auto.
  - destruct (int_of s); discriminate.
  - inversion H; subst. assert (st' = Item (KStr s)) by (apply (slot_fun _ _ _ _ W S); constructor). subst.
    assert (ST : s <> t). { intros ->. apply D. apply A; auto. }
    simpl in *. rewrite lookup_set_other by congruence. destruct (lookup (KStr t) d); auto.
    destruct (isdigit t); auto. destruct (int_of t) as [z|]; auto. rewrite lookup_set_other by discriminate. auto.
  - inversion H; subst. assert (st' = Item (KStr s)) by (apply (slot_fun _ _ _ _ W S); constructor). subst.
    assert (ST : s <> t). { intros ->. apply D. apply A; auto. }
    simpl in *. rewrite lookup_set_other by congruence. auto.
Qed.

Lemma frame init : forall v s x v' tloc qs lq w, wf_val v -> set_at v init s x = Ok v' -> target v (init ++ [s]) tloc ->
  (forall loc u, walk v (init ++ [s]) = Ok (loc, u) -> loc = tloc) ->
  walk v qs = Ok (lq, w) -> ~ is_prefix tloc lq -> ~ is_prefix lq tloc -> walk v' qs = Ok (lq, w).
Proof.
  induction init as [|t init IH]; intros v s x v' tloc qs lq w W H T A K P1 P2.
  - destruct T as [i0 [s0 [lp [u [st' [E [L [S ->]]]]]]]]. apply app_inj_tail in E. destruct E as [<- <-].
    inversion L; subst. simpl in *. destruct qs as [|q qs].
    { simpl in K. inversion K; subst. exfalso. apply P2. exists [st']. reflexivity. }
    simpl in *. destruct (find u q) as [[st w0]|e] eqn:F; simpl in K; [|discriminate].
    destruct (walk w0 qs) as [[l w1]|e] eqn:WK; simpl in K; [|discriminate]. inversion K; subst.
    assert (D : st <> st'). { intros ->. apply P1. exists l. reflexivity. }
    rewrite (write_other u s x v' q st w0 st' H S F D); auto.
    + simpl. rewrite WK. reflexivity.
    + intros <- F'. rewrite F' in A. simpl in A. specialize (A _ _ eq_refl). congruence.
  - simpl in H. destruct (find v t) as [[st0 w0]|e] eqn:F0; simpl in H; [|discriminate].
    destruct (set_at w0 init s x) as [w0'|e] eqn:E; simpl in H; [|discriminate]. inversion H; subst.
    assert (T' : exists tl, tloc = st0 :: tl /\ target w0 (init ++ [s]) tl).
    { destruct T as [i0 [s0 [lp [u [st' [Eq [L [S ->]]]]]]]]. change ((t :: init) ++ [s]) with ((t :: init) ++ [s]) in Eq.
      apply app_inj_tail in Eq. destruct Eq as [<- <-]. inversion L as [|v0 s1 st w1 segs0 l x0 K0 L']; subst.
      apply find_picks in K0; auto.
      assert (Q : (st0, w0) = (st, w1)) by congruence. inversion Q; subst. exists (l ++ [st']). split; auto.
      exists init, s, l, u, st'. auto. }
    destruct T' as [tl [-> T']]. destruct qs as [|q qs].
    { simpl in K. inversion K; subst. exfalso. apply P2. eexists. reflexivity. }
    simpl in K. destruct (find v q) as [[st w1]|e] eqn:F; simpl in K; [|discriminate].
    destruct (walk w1 qs) as [[l w2]|e] eqn:WK; simpl in K; [|discriminate]. inversion K; subst. simpl.
    assert (SD : {st0 = st} + {st0 <> st}) by (repeat decide equality).
    destruct SD as [->|SD].
    + pose proof (find_child _ _ _ _ F) as C1. pose proof (find_child _ _ _ _ F0) as C2.
      assert (w1 = w0) by congruence. subst w1.
      assert (F' : find (put v st w0') q = Ok (st, w0')) by (apply find_put_same with w0; auto).
      rewrite F'. simpl. rewrite (IH w0 s x w0' tl qs l w); auto.
      * eapply child_wf; eauto.
      * intros loc u Q. specialize (A (st :: loc) u). simpl in A. rewrite F0 in A. simpl in A. rewrite Q in A. simpl in A.
        specialize (A eq_refl). congruence.
      * intros [ext ->]. apply P1. exists ext. reflexivity.
      * intros [ext ->]. apply P2. exists ext. reflexivity.
    + rewrite (find_put_other v q st w1 st0 w0 w0' F (find_child _ _ _ _ F0) SD). simpl. rewrite WK. reflexivity.
Qed.

(** ** References *)
Lemma foldM_ext_ok {A S} (f g : S -> A -> res S) l : (forall s x s', f s x = Ok s' -> g s x = Ok s') ->
  forall s r, foldM f l s = Ok r -> foldM g l s = Ok r.
Proof.
  intros H. induction l as [|x l IH]; intros s r E; simpl in *; auto. destruct (f s x) as [s'|e] eqn:F; simpl in E; [|discriminate].
  rewrite (H _ _ _ F). simpl. auto.
Qed.

Lemma get_more n : forall ep root segs r, get_at n ep root segs = Ok r -> get_at (S n) ep root segs = Ok r.
Proof.
  induction n as [|n IH]; intros ep root segs r H; [discriminate|].
  cbn [PathsModel.get_at] in H |- *. eapply foldM_ext_ok; [|exact H]. cbv beta. intros lv s lv' E.
  destruct (snd lv) eqn:V; try exact E. destruct ep; try exact E. destruct (lookup ref_marker d) as [v|] eqn:L; try exact E.
  destruct v; try exact E. destruct (get_at n true root (segments s0)) as [q|e] eqn:G; cbn [bind] in E; [|discriminate].
  apply IH in G. cbn [PathsModel.get_at] in G. rewrite G. exact E.
Qed.
Lemma get_le n m ep root segs r : (n <= m)%nat -> get_at n ep root segs = Ok r -> get_at m ep root segs = Ok r.
Proof. intros L. induction L; auto. intros H. apply get_more. auto. Qed.

Definition is_ref (v : val) : bool := match v with VDict d => has_key ref_marker d | _ => false end.

(** one more step from where a path has led *)
Lemma get_snoc n ep root segs qs : get_at (S n) ep root (segs ++ qs) =
  (let* lv := get_at (S n) ep root segs in
   foldM (fun (lv : list step * val) s =>
             let* lv' := match snd lv with
                         | VDict d =>
                           if ep then
                             match lookup ref_marker d with
                             | None => Ok lv
                             | Some (VStr t) => get_at n true root (segments t)
                             | Some _ => Err AttributeError
                             end
                           else Ok lv
                         | _ => Ok lv
                         end in
             let* sw := find (snd lv') s in
             Ok (fst lv' ++ [fst sw], snd sw)) qs lv).
Proof. cbn [PathsModel.get_at]. apply foldM_app. Qed.

Lemma through_ref n root ps d t q qs lv lt vt : get_at (S n) true root ps = Ok (lv, VDict d) ->
  lookup ref_marker d = Some (VStr t) -> get_at n true root (segments t) = Ok (lt, vt) -> is_ref vt = false ->
  get_at (S n) true root (ps ++ q :: qs) = get_at (S n) true root (segments t ++ q :: qs).
Proof.
  intros H1 L H2 R. rewrite !get_snoc. rewrite H1, (get_more _ _ _ _ _ H2). cbn [bind foldM snd fst]. rewrite L, H2. cbn [bind].
  assert (E : match vt with
              | VDict d0 => match lookup ref_marker d0 with
                            | None => Ok (lt, vt)
                            | Some (VStr t0) => get_at n true root (segments t0)
                            | Some _ => Err AttributeError
                            end
              | _ => Ok (lt, vt) end = Ok (lt, vt)).
  { destruct vt; auto. simpl in R. unfold has_key in R. destruct (lookup ref_marker d0); [discriminate|auto]. }
  rewrite E. reflexivity.
Qed.
End P.

(** Proofs about step edition. *)
From Coq Require Import ZArith String List Bool Arith Lia Permutation.
From Verif Require Import Base BaseProofs StepsModel StepsSpec.
Import ListNotations.

Lemma nat_eqb_spec' : forall x y : nat, Nat.eqb x y = true <-> x = y.
Proof. intros; apply Nat.eqb_eq. Qed.
Lemma z_eqb_spec' : forall x y : Z, Z.eqb x y = true <-> x = y.
Proof. intros; apply Z.eqb_eq. Qed.

(** Permutations of concatenations, by counting. *)
Ltac perm_count :=
  apply (Permutation_count_occ Nat.eq_dec); intros ?z;
  repeat (rewrite count_occ_app || simpl);
  repeat match goal with |- context [if ?d then _ else _] => destruct d end; lia.

(** ** update_nth / remove_nth *)
Lemma update_nth_length {A} n (f : A -> A) l : length (update_nth n f l) = length l.
Proof. revert n; induction l; intros [|n]; simpl; auto. Qed.

Lemma update_nth_split {A} n (f : A -> A) l x :
  nth_error l n = Some x ->
  l = firstn n l ++ x :: skipn (S n) l /\ update_nth n f l = firstn n l ++ f x :: skipn (S n) l.
Proof.
  revert n; induction l as [|y l IH]; intros [|n] H; simpl in *; try discriminate.
  - inversion H; subst; auto.
  - destruct (IH _ H) as [E1 E2]. split; f_equal; auto.
Qed.

Lemma update_nth_nth {A} n (f : A -> A) l k :
  nth_error (update_nth n f l) k = if Nat.eqb k n then option_map f (nth_error l k) else nth_error l k.
Proof.
  revert n k; induction l as [|y l IH]; intros [|n] [|k]; simpl; auto.
  destruct (Nat.eqb k n); reflexivity.
Qed.

Lemma update_nth_map {A B} (g : A -> B) n f l :
  (forall x, g (f x) = g x) -> map g (update_nth n f l) = map g l.
Proof. intros H; revert n; induction l; intros [|n]; simpl; auto; rewrite ?H, ?IHl; auto. Qed.

Lemma remove_nth_split {A} n (l : list A) x :
  nth_error l n = Some x -> remove_nth n l = firstn n l ++ skipn (S n) l.
Proof.
  revert n; induction l as [|y l IH]; intros [|n] H; simpl in *; try discriminate; auto.
  f_equal. eapply IH; eauto.
Qed.

Lemma py_index_some_nth {A} (l : list A) i k : py_index (length l) i = Some k -> exists x, nth_error l k = Some x.
Proof.
  intros H. apply py_index_lt in H. destruct (nth_error l k) eqn:E; eauto.
  apply nth_error_None in E; lia.
Qed.

(** ** find_indices *)
Lemma find_indices_In {A} (p : A -> bool) i l k :
  In k (find_indices p i l) <-> exists x, i <= k /\ nth_error l (k - i) = Some x /\ p x = true.
Proof.
  revert i; induction l as [|y l IH]; intros i; simpl.
  - split; [tauto|]. intros [x [_ [H _]]]. destruct (k - i); discriminate.
  - assert (R : In k (find_indices p (S i) l) <->
                 exists x, i < k /\ nth_error (y :: l) (k - i) = Some x /\ p x = true).
    { rewrite IH. split.
      - intros [x [L [N P]]]. exists x. replace (k - i) with (S (k - S i)) by lia. auto.
      - intros [x [L [N P]]]. exists x. replace (k - i) with (S (k - S i)) in N by lia. auto. }
    destruct (p y) eqn:E; simpl; rewrite R.
    + split.
      * intros [->|[x [L H]]]; [|exists x; split; [lia|auto]].
        exists y. rewrite Nat.sub_diag. auto.
      * intros [x [L [N P]]]. destruct (Nat.eq_dec i k); auto. right. exists x. split; [lia|auto].
    + split.
      * intros [x [L H]]; exists x; split; [lia|auto].
      * intros [x [L [N P]]]. destruct (Nat.eq_dec i k).
        { subst. rewrite Nat.sub_diag in N. simpl in N. inversion N; subst; congruence. }
        exists x; split; [lia|auto].
Qed.

Section P.
Variable inputs : list var.
Hypothesis inputs_nodup : NoDup inputs.

Notation part := (in_exactly_one_place inputs).
Notation change_input_step := (change_input_step inputs).
Notation remove_input_from_step := (remove_input_from_step inputs).

Definition all (s : st) := spare s ++ concat (map s_inputs (steps s)).

Lemma part_nodup s : part s -> NoDup (all s).
Proof. intros H. eapply Permutation_NoDup; [symmetry; exact H|auto]. Qed.

Lemma part_in s v : part s -> (In v inputs <-> In v (all s)).
Proof.
  intros H. unfold all. split; intros I; [eapply Permutation_in; [symmetry; exact H|auto]
                                        | eapply Permutation_in; [exact H|auto]].
Qed.

Lemma concat_split (l : list step) k x :
  nth_error l k = Some x ->
  concat (map s_inputs l) =
  concat (map s_inputs (firstn k l)) ++ s_inputs x ++ concat (map s_inputs (skipn (S k) l)).
Proof.
  intros H. destruct (update_nth_split k (fun y => y) l x H) as [E _].
  rewrite E at 1. rewrite map_app, concat_app. reflexivity.
Qed.

Lemma concat_update (l : list step) k f x :
  nth_error l k = Some x ->
  concat (map s_inputs (update_nth k f l)) =
  concat (map s_inputs (firstn k l)) ++ s_inputs (f x) ++ concat (map s_inputs (skipn (S k) l)).
Proof.
  intros H. destruct (update_nth_split k f l x H) as [_ E].
  rewrite E. rewrite map_app, concat_app. reflexivity.
Qed.

(** [find_input_step] in a partitioned state. *)
Lemma in_concat_steps (l : list step) v :
  In v (concat (map s_inputs l)) <-> exists k x, nth_error l k = Some x /\ In v (s_inputs x).
Proof.
  rewrite in_concat. split.
  - intros [ys [H I]]. apply in_map_iff in H. destruct H as [x [<- Hx]].
    apply In_nth_error in Hx. destruct Hx as [k Hk]. eauto.
  - intros [k [x [N I]]]. exists (s_inputs x). split; auto. apply in_map. eapply nth_error_In; eauto.
Qed.

Lemma two_steps_dup (l : list step) v k1 k2 x1 x2 :
  NoDup (concat (map s_inputs l)) ->
  nth_error l k1 = Some x1 -> In v (s_inputs x1) ->
  nth_error l k2 = Some x2 -> In v (s_inputs x2) -> k1 = k2.
Proof.
  revert k1 k2; induction l as [|y l IH]; intros k1 k2 ND N1 I1 N2 I2.
  - destruct k1; discriminate.
  - simpl in ND.
    assert (X : forall a, In a (s_inputs y) -> In a (concat (map s_inputs l)) -> False).
    { intros a Ia Ja. clear - ND Ia Ja. induction (s_inputs y) as [|b t IHt]; simpl in *; [tauto|].
      inversion ND; subst. destruct Ia as [->|Ia]; auto. apply H1. apply in_or_app; auto. }
    destruct k1, k2; simpl in *; auto.
    + inversion N1; subst. exfalso. apply (X v); auto. apply in_concat_steps; eauto.
    + inversion N2; subst. exfalso. apply (X v); auto. apply in_concat_steps; eauto.
    + f_equal. eapply IH; eauto. clear - ND. induction (s_inputs y); simpl in *; auto.
      inversion ND; auto.
Qed.

Lemma find_indices_sorted_nodup {A} (p : A -> bool) i l : NoDup (find_indices p i l).
Proof.
  revert i; induction l; intros i; simpl; [constructor|]. destruct (p a); auto.
  constructor; auto. rewrite find_indices_In. intros [x [L _]]. lia.
Qed.

Lemma find_input_step_char s v :
  NoDup (concat (map s_inputs (steps s))) ->
  match find_input_step s v with
  | Ok None => ~ In v (concat (map s_inputs (steps s)))
  | Ok (Some k) => exists x, nth_error (steps s) k = Some x /\ In v (s_inputs x)
  | Err _ => False
  end.
Proof.
  intros ND. unfold find_input_step.
  set (l := find_indices _ 0 (steps s)).
  assert (C : forall k, In k l <-> exists x, nth_error (steps s) k = Some x /\ In v (s_inputs x)).
  { intros k. unfold l. rewrite find_indices_In. split.
    - intros [x [_ [N M]]]. rewrite Nat.sub_0_r in N. apply (memb_In _ nat_eqb_spec') in M. eauto.
    - intros [x [N I]]. exists x. rewrite Nat.sub_0_r. split; [lia|]. split; auto.
      apply (memb_In _ nat_eqb_spec'); auto. }
  assert (D : NoDup l) by apply find_indices_sorted_nodup.
  destruct l as [|k [|k' l']].
  - rewrite in_concat_steps. intros [k [x H]]. apply (C k); eauto.
  - apply C. simpl; auto.
  - destruct (proj1 (C k)) as [x [N I]]; [simpl; auto|].
    destruct (proj1 (C k')) as [x' [N' I']]; [simpl; auto|].
    assert (k = k') by (eapply two_steps_dup; eauto). subst.
    inversion D; subst. simpl in *; tauto.
Qed.

Lemma part_steps_nodup s : part s -> NoDup (concat (map s_inputs (steps s))).
Proof.
  intros H. apply part_nodup in H. unfold all in H.
  clear - H. induction (spare s); simpl in *; auto. inversion H; auto.
Qed.

(** ** Elementary moves *)
Lemma append_all s k v x :
  nth_error (steps s) k = Some x -> Permutation (all (append_to_step k v s)) (v :: all s).
Proof.
  intros N. unfold all, append_to_step; simpl.
  rewrite (concat_update _ _ _ _ N), (concat_split _ _ _ N). simpl.
  perm_count.
Qed.

Lemma remove_from_step_all s k v s' :
  remove_from_step k v s = (s', None) ->
  Permutation (all s) (v :: all s') /\ spare s' = spare s /\ length (steps s') = length (steps s).
Proof.
  unfold remove_from_step. destruct (nth_error (steps s) k) as [x|] eqn:N; [|discriminate].
  destruct (remove_first Nat.eqb v (s_inputs x)) eqn:R; [|discriminate].
  intros H; inversion H; subst; clear H.
  apply (remove_first_inv _ nat_eqb_spec') in R. destruct R as [I P].
  split; [|split; simpl; auto using update_nth_length].
  unfold all; simpl. rewrite (concat_update _ _ _ _ N), (concat_split _ _ _ N). simpl.
  rewrite P. simpl. rewrite !app_assoc. rewrite <- Permutation_middle.
  rewrite <- !app_assoc. reflexivity.
Qed.

Lemma remove_from_step_ok s k v x :
  nth_error (steps s) k = Some x -> In v (s_inputs x) -> exists s', remove_from_step k v s = (s', None).
Proof.
  intros N I. unfold remove_from_step. rewrite N.
  destruct (remove_first_ok _ nat_eqb_spec' v (s_inputs x) I) as [r [-> _]]. eauto.
Qed.

Lemma append_nth s k v j :
  nth_error (steps (append_to_step k v s)) j =
  if Nat.eqb j k then option_map (fun x => set_inputs x (s_inputs x ++ [v])) (nth_error (steps s) j)
  else nth_error (steps s) j.
Proof. unfold append_to_step; simpl. apply update_nth_nth. Qed.

(** ** change_input_step *)
Lemma change_input_step_part i new s s' e :
  part s -> change_input_step i new s = (s', e) ->
  part s' /\ length (steps s') = length (steps s) /\ (e <> None -> s' = s).
Proof.
  intros P. unfold StepsModel.change_input_step.
  destruct (py_get inputs i) as [input|e0] eqn:G;
    [|intros H; inversion H; subst; auto].
  apply py_get_ok in G. destruct G as [n [_ G]]. apply nth_error_In in G.
  pose proof (find_input_step_char s input (part_steps_nodup s P)) as F.
  destruct (find_input_step s input) as [cur|e0]; [|contradiction].
  destruct (py_index (length (steps s)) new) as [k|] eqn:K;
    [|intros H; inversion H; subst; auto].
  destruct (py_index_some_nth _ _ _ K) as [x N].
  pose proof (append_all s k input x N) as A.
  destruct cur as [c|].
  - destruct F as [y [Ny Iy]].
    assert (Ny' : exists y', nth_error (steps (append_to_step k input s)) c = Some y' /\ In input (s_inputs y')).
    { rewrite append_nth. destruct (Nat.eqb_spec c k).
      - rewrite Ny; simpl. eexists; split; eauto. simpl. apply in_or_app; auto.
      - eauto. }
    destruct Ny' as [y' [Ny' Iy']].
    destruct (remove_from_step_ok _ _ _ _ Ny' Iy') as [s1 R]. rewrite R.
    intros H; inversion H; subst; clear H.
    apply remove_from_step_all in R. destruct R as [R1 [R2 R3]].
    rewrite R1 in A. apply Permutation_cons_inv in A.
    split; [|split; [|congruence]].
    + unfold in_exactly_one_place. rewrite <- P. exact A.
    + rewrite R3. unfold append_to_step; simpl. apply update_nth_length.
  - simpl in *.
    assert (Isp : In input (spare s)).
    { apply (part_in s input P) in G. unfold all in G. apply in_app_or in G. tauto. }
    destruct (remove_first_ok _ nat_eqb_spec' input (spare s) Isp) as [r [R Pr]]. rewrite R.
    intros H; inversion H; subst; clear H. simpl.
    split; [|split; [apply update_nth_length|congruence]].
    unfold in_exactly_one_place in *; simpl. transitivity (all s); [|exact P].
    apply (Permutation_cons_inv (a := input)). rewrite <- A.
    unfold all, append_to_step; simpl. rewrite app_comm_cons, <- Pr. reflexivity.
Qed.

Lemma edit_loop_inv {A} (P : st -> Prop) (f : A -> st -> outcome) l s s' e :
  (forall x s s' e, In x l -> P s -> f x s = (s', e) -> P s') ->
  P s -> edit_loop f l s = (s', e) -> P s'.
Proof.
  revert s; induction l as [|x l IH]; simpl; intros s Hf Hs H.
  - inversion H; subst; auto.
  - destruct (f x s) as [s1 [e1|]] eqn:E.
    + inversion H; subst. eapply Hf; eauto.
    + eapply IH; [| |exact H]; eauto.
Qed.

Lemma change_inputs_step_part is new s s' e :
  part s -> change_inputs_step inputs is new s = (s', e) -> part s'.
Proof.
  intros P H. unfold change_inputs_step in H.
  eapply edit_loop_inv; [|exact P|exact H].
  intros x s0 s1 e0 _ P0 E. eapply change_input_step_part in E; eauto. tauto.
Qed.

(** ** remove_input_from_step *)
Lemma remove_input_from_step_ok i s s' :
  part s -> remove_input_from_step i s = (s', None) -> part s' /\ length (steps s') = length (steps s).
Proof.
  intros P. unfold StepsModel.remove_input_from_step.
  destruct (py_get inputs i) as [input|] eqn:G; [|discriminate].
  destruct (find_input_step _ input) as [[c|]|]; [|discriminate|discriminate].
  intros R. apply remove_from_step_all in R. simpl in R. destruct R as [R1 [R2 R3]].
  split; auto. unfold in_exactly_one_place. rewrite <- P. fold (all s').
  assert (A : Permutation (all (mkSt (spare s ++ [input]) (steps s))) (input :: all s)).
  { unfold all; simpl. rewrite <- app_assoc. simpl. symmetry. apply Permutation_middle. }
  rewrite R1 in A. apply Permutation_cons_inv in A. exact A.
Qed.

Lemma remove_input_from_step_succeeds n s v k x :
  part s -> nth_error inputs n = Some v ->
  nth_error (steps s) k = Some x -> In v (s_inputs x) ->
  exists r, remove_first Nat.eqb v (s_inputs x) = Ok r /\
  remove_input_from_step (Z.of_nat n) s =
    (mkSt (spare s ++ [v]) (update_nth k (fun y => set_inputs y r) (steps s)), None).
Proof.
  intros P G N I. unfold StepsModel.remove_input_from_step.
  rewrite (py_get_of_nat _ _ _ G).
  pose proof (find_input_step_char (mkSt (spare s ++ [v]) (steps s)) v (part_steps_nodup s P)) as F.
  simpl in F.
  destruct (find_input_step _ v) as [[c|]|]; [|exfalso; apply F; apply in_concat_steps; eauto|contradiction].
  destruct F as [y [Ny Iy]].
  assert (c = k) by (eapply two_steps_dup; eauto using part_steps_nodup). subst.
  rewrite N in Ny; inversion Ny; subst y.
  destruct (remove_first_ok _ nat_eqb_spec' v (s_inputs x) I) as [r [Hr _]].
  exists r; split; auto. unfold remove_from_step; simpl. rewrite N, Hr. reflexivity.
Qed.

(** The failing case: an input that is in no step. *)
Lemma remove_input_from_step_spare n s v :
  part s -> nth_error inputs n = Some v -> In v (spare s) ->
  remove_input_from_step (Z.of_nat n) s = (mkSt (spare s ++ [v]) (steps s), Some AttributeError).
Proof.
  intros P G I. unfold StepsModel.remove_input_from_step.
  rewrite (py_get_of_nat _ _ _ G).
  pose proof (find_input_step_char (mkSt (spare s ++ [v]) (steps s)) v (part_steps_nodup s P)) as F.
  simpl in F. destruct (find_input_step _ v) as [[c|]|]; auto; [|contradiction].
  exfalso. destruct F as [y [Ny Iy]].
  apply part_nodup in P. unfold all in P.
  assert (J : In v (concat (map s_inputs (steps s)))) by (apply in_concat_steps; eauto).
  clear - P I J. induction (spare s); simpl in *; [tauto|]. inversion P; subst.
  destruct I as [->|I]; auto. apply H1. apply in_or_app; auto.
Qed.

(** ** remove_step *)
Lemma remove_last_nodup (l : list nat) v : NoDup (l ++ [v]) -> remove_first Nat.eqb v (l ++ [v]) = Ok l.
Proof.
  induction l as [|y l IH]; simpl; intros ND.
  - rewrite Nat.eqb_refl. reflexivity.
  - inversion ND; subst. destruct (Nat.eqb_spec v y).
    + subst. exfalso. apply H1. apply in_or_app; simpl; auto.
    + rewrite IH by auto. reflexivity.
Qed.

Lemma step_nodup s k x : part s -> nth_error (steps s) k = Some x -> NoDup (s_inputs x).
Proof.
  intros P N. apply part_steps_nodup in P. rewrite (concat_split _ _ _ N) in P.
  clear - P. induction (concat (map s_inputs (firstn k (steps s)))); simpl in P.
  - induction (s_inputs x); [constructor|]. simpl in P. inversion P; subst. constructor; auto.
    intros I; apply H1; apply in_or_app; auto.
  - inversion P; auto.
Qed.

Lemma step_in_inputs s k x v :
  part s -> nth_error (steps s) k = Some x -> In v (s_inputs x) -> In v inputs.
Proof.
  intros P N I. apply (part_in s v P). unfold all. apply in_or_app. right. apply in_concat_steps; eauto.
Qed.

Lemma set_inputs_update k (l : list step) a b :
  update_nth k (fun y => set_inputs y b) (update_nth k (fun y => set_inputs y a) l)
  = update_nth k (fun y => set_inputs y b) l.
Proof. revert k; induction l; intros [|k]; simpl; auto. f_equal. auto. Qed.

Lemma remove_step_loop k ls x s :
  part s -> nth_error (steps s) k = Some x -> s_inputs x = ls ->
  edit_loop (remove_step_item inputs k) (rev (seq 0 (length ls))) s =
    (mkSt (spare s ++ rev ls) (update_nth k (fun y => set_inputs y []) (steps s)), None).
Proof.
  revert x s. induction ls as [|v ls IH] using rev_ind; intros x s P N E.
  - simpl. rewrite app_nil_r. f_equal. destruct s as [sp sts]; simpl in *. f_equal.
    assert (U : update_nth k (fun y => set_inputs y []) sts = sts).
    { clear P. revert k N. induction sts as [|y sts IH]; intros [|k] N; simpl in *; try discriminate.
      - inversion N; subst. f_equal. destruct x; simpl in *; subst; reflexivity.
      - f_equal; eauto. }
    congruence.
  - rewrite app_length; simpl. rewrite Nat.add_1_r. rewrite seq_S. rewrite rev_app_distr. simpl.
    unfold remove_step_item at 1. rewrite N, E.
    rewrite nth_error_app2 by lia. rewrite Nat.sub_diag. simpl.
    assert (Iv : In v inputs).
    { eapply step_in_inputs; eauto. rewrite E. apply in_or_app; simpl; auto. }
    destruct (index_of_In _ nat_eqb_spec' v inputs Iv) as [n Hn]. rewrite Hn.
    apply (index_of_Some _ nat_eqb_spec') in Hn. destruct Hn as [Hn _].
    destruct (remove_input_from_step_succeeds n s v k x P Hn N) as [r [Hr R]].
    { rewrite E. apply in_or_app; simpl; auto. }
    rewrite E in Hr. pose proof (step_nodup _ _ _ P N) as ND. rewrite E in ND.
    rewrite (remove_last_nodup _ _ ND) in Hr. inversion Hr; subst r; clear Hr.
    rewrite R.
    pose proof (remove_input_from_step_ok _ _ _ P R) as [P' _].
    rewrite (IH (set_inputs x ls) _ P').
    + simpl. rewrite set_inputs_update. rewrite rev_app_distr. simpl. rewrite <- app_assoc. reflexivity.
    + simpl. rewrite update_nth_nth, Nat.eqb_refl, N. reflexivity.
    + reflexivity.
Qed.

Lemma remove_nth_update {A} k (f : A -> A) l : remove_nth k (update_nth k f l) = remove_nth k l.
Proof. revert k; induction l; intros [|k]; simpl; auto. f_equal; auto. Qed.

Lemma remove_step_exact i k x s :
  part s -> py_index (length (steps s)) i = Some k -> nth_error (steps s) k = Some x ->
  remove_step inputs i s = (mkSt (spare s ++ rev (s_inputs x)) (remove_nth k (steps s)), None).
Proof.
  intros P K N. unfold remove_step. rewrite K, N.
  rewrite (remove_step_loop k (s_inputs x) x s P N eq_refl). simpl.
  rewrite remove_nth_update. reflexivity.
Qed.

Lemma remove_nth_part s k x :
  part s -> nth_error (steps s) k = Some x ->
  part (mkSt (spare s ++ rev (s_inputs x)) (remove_nth k (steps s))).
Proof.
  intros P N. unfold in_exactly_one_place in *; simpl. rewrite <- P.
  rewrite (remove_nth_split _ _ _ N), (concat_split _ _ _ N).
  rewrite map_app, concat_app. rewrite <- Permutation_rev.
  rewrite <- !app_assoc. apply Permutation_app_head.
  rewrite !app_assoc. apply Permutation_app_tail. apply Permutation_app_comm.
Qed.

Lemma remove_step_part i s s' e :
  part s -> remove_step inputs i s = (s', e) ->
  part s' /\ (e <> None -> s' = s) /\ (e = None -> S (length (steps s')) = length (steps s)).
Proof.
  intros P H. destruct (py_index (length (steps s)) i) as [k|] eqn:K.
  - destruct (py_index_some_nth _ _ _ K) as [x N].
    rewrite (remove_step_exact _ _ _ _ P K N) in H. inversion H; subst; clear H.
    split; [apply remove_nth_part; auto|]. split; [congruence|]. intros _. simpl.
    rewrite (remove_nth_split _ _ _ N). apply py_index_lt in K.
    rewrite app_length, firstn_length, skipn_length. lia.
  - unfold remove_step in H. rewrite K in H. inversion H; subst. auto.
    split; auto. split; auto. discriminate.
Qed.

Lemma reset_steps_exact s :
  part s ->
  exists sp, reset_steps inputs s = (mkSt sp [], None) /\ Permutation sp inputs.
Proof.
  unfold reset_steps. intros P. remember (length (steps s)) as n eqn:En.
  revert s P En. induction n as [|n IH]; intros s P En.
  - simpl. exists (spare s). destruct s as [sp [|x l]]; simpl in *; [|discriminate].
    split; auto. unfold in_exactly_one_place in P; simpl in P. rewrite app_nil_r in P. exact P.
  - rewrite seq_S, rev_app_distr. simpl.
    assert (K : py_index (length (steps s)) (Z.of_nat n) = Some n).
    { rewrite py_index_nonneg by lia. rewrite Nat2Z.id. reflexivity. }
    destruct (py_index_some_nth _ _ _ K) as [x N].
    rewrite (remove_step_exact _ _ _ _ P K N).
    apply IH; [apply remove_nth_part; auto|]. simpl.
    rewrite (remove_nth_split _ _ _ N). rewrite app_length, firstn_length, skipn_length. lia.
Qed.

(** ** reorder *)
Lemma mapM_py_get_nth {A} (l : list A) order r :
  mapM (py_get l) order = Ok r ->
  Forall2 (fun i x => exists k, py_index (length l) i = Some k /\ nth_error l k = Some x) order r.
Proof.
  intros H. apply mapM_ok_inv in H. induction H; constructor; auto.
  apply py_get_ok in H. exact H.
Qed.

Lemma zset_eq_spec a b : zset_eq a b = true <-> (forall x, In x a <-> In x b).
Proof.
  unfold zset_eq, zsubset. rewrite andb_true_iff, !forallb_forall. split.
  - intros [H1 H2] x. split; intros I.
    + apply H1 in I. apply (memb_In _ z_eqb_spec') in I. auto.
    + apply H2 in I. apply (memb_In _ z_eqb_spec') in I. auto.
  - intros H; split; intros x I; apply (memb_In _ z_eqb_spec'); apply H; auto.
Qed.

Lemma index_map_inv x idx :
  mapM (fun v => of_option ValueError (input_index inputs v)) x = Ok idx ->
  Forall2 (fun v n => nth_error inputs n = Some v) x idx.
Proof.
  intros H. apply mapM_ok_inv in H. induction H; constructor; auto.
  unfold of_option, input_index in H. destruct (index_of Nat.eqb x inputs) eqn:E; inversion H; subst.
  apply (index_of_Some _ nat_eqb_spec') in E. tauto.
Qed.

Lemma reorder_values x idx order r :
  Forall2 (fun v n => nth_error inputs n = Some v) x idx ->
  NoDup x -> NoDup order ->
  (forall z, In z (map Z.of_nat idx) <-> In z order) ->
  mapM (py_get inputs) order = Ok r -> Permutation x r.
Proof.
  intros F ND NO S R. apply mapM_py_get_nth in R.
  assert (Nidx : NoDup (map Z.of_nat idx)).
  { clear S R. induction F as [|v n x idx N F IH]; [constructor|]. inversion ND; subst.
    simpl. constructor; auto. intros I. apply in_map_iff in I. destruct I as [m [Hm Im]].
    apply Nat2Z.inj in Hm; subst.
    clear - F Im N H1. induction F; simpl in *; [tauto|].
    destruct Im as [->|Im]; [|tauto]. rewrite N in H. inversion H; subst. tauto. }
  assert (P : Permutation (map Z.of_nat idx) order) by (apply NoDup_Permutation; auto).
  set (g := fun z => match py_get inputs z with Ok v => v | Err _ => 0 end).
  assert (Ex : x = map g (map Z.of_nat idx)).
  { clear - F. induction F; simpl; auto. f_equal; auto.
    unfold g. rewrite (py_get_of_nat _ _ _ H). reflexivity. }
  assert (Er : r = map g order).
  { clear - R. induction R; simpl; auto. f_equal; auto.
    destruct H as [k [K N]]. unfold g, py_get. rewrite K, N. reflexivity. }
  rewrite Ex, Er. apply Permutation_map; auto.
Qed.

Lemma reorder_step_inputs_part k order s s' e :
  part s -> NoDup order -> reorder_step_inputs inputs k order s = (s', e) ->
  part s' /\ (e <> None -> s' = s) /\ length (steps s') = length (steps s).
Proof.
  intros P NO. unfold reorder_step_inputs.
  destruct (py_index (length (steps s)) k) as [j|] eqn:K; [|intros H; inversion H; subst; auto].
  destruct (nth_error (steps s) j) as [x|] eqn:N; [|intros H; inversion H; subst; auto].
  destruct (mapM _ (s_inputs x)) as [idx|] eqn:M; [|intros H; inversion H; subst; auto].
  destruct (zset_eq _ _) eqn:ZE; [|intros H; inversion H; subst; auto].
  destruct (mapM (py_get inputs) order) as [r|] eqn:R; intros H; inversion H; subst; auto.
  split; [|split; [congruence|apply update_nth_length]].
  rewrite zset_eq_spec in ZE. apply index_map_inv in M.
  pose proof (reorder_values _ _ _ _ M (step_nodup _ _ _ P N) NO ZE R) as PR.
  unfold in_exactly_one_place in *; simpl. rewrite (concat_update _ _ _ _ N). simpl.
  rewrite <- P. rewrite (concat_split _ _ _ N). rewrite PR. reflexivity.
Qed.

(** Permutation given by an order of distinct in-range indices. *)
Lemma perm_by_order {A} (l : list A) order r :
  length order = length l -> NoDup order -> (forall i, In i order -> (0 <= i)%Z) ->
  mapM (py_get l) order = Ok r -> Permutation r l.
Proof.
  intros L ND NN R.
  assert (Rg : forall i, In i order -> (i < Z.of_nat (length l))%Z).
  { intros i Hi. apply mapM_py_get_nth in R.
    assert (E : exists x k, py_index (length l) i = Some k /\ nth_error l k = Some x).
    { clear - R Hi. induction R; simpl in *; [tauto|]. destruct Hi as [->|]; auto.
      destruct H as [k [H1 H2]]. eauto. }
    destruct E as [x [k [K _]]]. unfold py_index in K. specialize (NN i Hi).
    destruct (0 <=? i)%Z eqn:Z1; [|apply Z.leb_gt in Z1; lia].
    destruct (i <? Z.of_nat (length l))%Z eqn:Z2; [apply Z.ltb_lt in Z2; auto|discriminate]. }
  set (nats := map Z.to_nat order).
  assert (Pn : Permutation nats (seq 0 (length l))).
  { apply NoDup_Permutation_bis.
    - unfold nats. clear - ND NN. induction order as [|i o IH]; simpl; [constructor|].
      inversion ND; subst. constructor.
      + intros I. apply in_map_iff in I. destruct I as [j [Hj Ij]].
        assert (j = i). { apply Z2Nat.inj; auto; apply NN; simpl; auto. } subst. contradiction.
      + apply IH; auto. intros; apply NN; simpl; auto.
    - unfold nats. rewrite map_length, seq_length. lia.
    - intros n Hn. unfold nats in Hn. apply in_map_iff in Hn. destruct Hn as [i [<- Hi]].
      apply in_seq. specialize (Rg i Hi). specialize (NN i Hi). lia. }
  assert (Er : map Some r = map (nth_error l) nats).
  { apply mapM_py_get_nth in R. unfold nats. clear - R NN Rg.
    induction R; simpl; auto. f_equal.
    - destruct H as [k [K N]]. rewrite py_index_nonneg in K.
      + inversion K; subst; auto.
      + apply NN; simpl; auto.
      + apply Rg; simpl; auto.
    - apply IHR; intros; [apply NN|apply Rg]; simpl; auto. }
  assert (El : map Some l = map (nth_error l) (seq 0 (length l))).
  { clear. induction l as [|a l IH]; simpl; auto. f_equal. rewrite IH. rewrite <- seq_shift, map_map. reflexivity. }
  assert (PS : Permutation (map Some r) (map Some l)).
  { rewrite Er, El. apply Permutation_map; auto. }
  clear - PS.
  apply Permutation_map_inv in PS. destruct PS as [l' [E Q]].
  assert (l' = r). { clear Q. revert r E. induction l'; intros [|b r] E; simpl in E; inversion E; subst; auto. f_equal; auto. }
  subst. symmetry; auto.
Qed.

Lemma dedup_length_nodup (l : list Z) : length (dedup Z.eqb [] l) = length l -> NoDup l.
Proof.
  intros H.
  assert (G : forall seen l, length (dedup Z.eqb seen l) <= length l).
  { intros seen l0; revert seen; induction l0; intros seen; simpl; auto.
    destruct (memb Z.eqb a seen); simpl; [specialize (IHl0 seen)|specialize (IHl0 (a :: seen))]; lia. }
  assert (F : forall seen l, length (dedup Z.eqb seen l) = length l -> dedup Z.eqb seen l = l).
  { intros seen l0; revert seen; induction l0 as [|a l0 IH]; intros seen E; simpl in *; auto.
    destruct (memb Z.eqb a seen).
    - specialize (G seen l0); lia.
    - simpl in E. f_equal. apply IH. lia. }
  rewrite <- (F [] l H). apply (dedup_NoDup _ z_eqb_spec').
Qed.

Lemma reorder_steps_perm order s s' :
  (forall i, In i order -> (0 <= i)%Z) ->
  reorder_steps order s = (s', None) ->
  spare s' = spare s /\ Permutation (steps s') (steps s).
Proof.
  intros NN. unfold reorder_steps.
  destruct (Nat.eqb_spec (length order) (length (steps s))) as [L|]; simpl; [|discriminate].
  destruct (Nat.eqb_spec (length (dedup Z.eqb [] order)) (length (steps s))) as [D|]; simpl; [|discriminate].
  destruct (mapM (py_get (steps s)) order) as [r|] eqn:R; intros H; inversion H; subst. simpl.
  split; auto. apply (perm_by_order _ order); auto. apply dedup_length_nodup. congruence.
Qed.

Lemma reorder_steps_err order s s' e : reorder_steps order s = (s', Some e) -> s' = s.
Proof.
  unfold reorder_steps. destruct (negb _); [intros H; inversion H; auto|].
  destruct (negb _); [intros H; inversion H; auto|].
  destruct (mapM _ order); intros H; inversion H; auto.
Qed.

Lemma reorder_steps_part order s s' e :
  (forall i, In i order -> (0 <= i)%Z) ->
  part s -> reorder_steps order s = (s', e) -> part s'.
Proof.
  intros NN P H. destruct e as [e|].
  - apply reorder_steps_err in H; subst; auto.
  - apply reorder_steps_perm in H; auto. destruct H as [E Q].
    unfold in_exactly_one_place in *. rewrite E, <- P.
    apply Permutation_app_head. clear - Q. induction Q; simpl; auto.
    + apply Permutation_app_head; auto.
    + rewrite !app_assoc. apply Permutation_app_tail. apply Permutation_app_comm.
    + etransitivity; eauto.
Qed.

(** ** others *)
Lemma on_step_part k f s s' e :
  (forall x, s_inputs (f x) = s_inputs x) ->
  part s -> on_step k f s = (s', e) -> part s' /\ (e <> None -> s' = s).
Proof.
  intros Hf P. unfold on_step. destruct (py_index _ k); intros H; inversion H; subst; auto.
  split; [|congruence]. unfold in_exactly_one_place in *; simpl.
  rewrite update_nth_map; auto.
Qed.

Lemma insert_step_part label k s s' e :
  part s -> insert_step label k s = (s', e) -> part s' /\ e = None.
Proof.
  intros P. unfold insert_step. destruct k as [i|]; intros H; inversion H; subst; clear H;
    split; auto; unfold in_exactly_one_place in *; simpl; rewrite <- P; apply Permutation_app_head.
  - unfold py_insert. set (j := Z.to_nat _). clearbody j.
    rewrite <- (firstn_skipn j (steps s)) at 3.
    rewrite !map_app, !concat_app. reflexivity.
  - rewrite map_app, concat_app. simpl. rewrite app_nil_r. reflexivity.
Qed.

Lemma spare_complement placed :
  NoDup placed -> (forall v, In v placed -> In v inputs) ->
  Permutation (filter (fun v => negb (memb Nat.eqb v placed)) inputs ++ placed) inputs.
Proof.
  intros ND S. apply NoDup_Permutation; auto.
  - assert (NF : NoDup (filter (fun v => negb (memb Nat.eqb v placed)) inputs)) by (apply NoDup_filter; auto).
    assert (D : forall a, In a (filter (fun v => negb (memb Nat.eqb v placed)) inputs) -> ~ In a placed).
    { intros a Ia. apply filter_In in Ia. destruct Ia as [_ Ia]. apply negb_true_iff in Ia.
      apply (memb_In_false _ nat_eqb_spec') in Ia. auto. }
    induction (filter _ inputs) as [|a l IH]; simpl; auto.
    inversion NF; subst. constructor.
    + intros I. apply in_app_or in I. destruct I as [I|I]; [contradiction|].
      apply (D a); simpl; auto.
    + apply IH; auto. intros; apply D; simpl; auto.
  - intros v. rewrite in_app_iff, filter_In, negb_true_iff, (memb_In_false _ nat_eqb_spec').
    split; [intros [[I _]|I]; auto|]. intros I.
    destruct (in_dec Nat.eq_dec v placed); auto.
Qed.

Lemma initial_part given :
  NoDup (concat (map s_inputs given)) ->
  (forall v, In v (concat (map s_inputs given)) -> In v inputs) ->
  part (initial inputs given).
Proof.
  intros ND S. unfold initial, in_exactly_one_place. destruct given as [|x g].
  - simpl. rewrite app_nil_r. reflexivity.
  - exact (spare_complement _ ND S).
Qed.

(** ** location effects *)
Lemma located_unique s v p q : part s -> located s v p -> located s v q -> p = q.
Proof.
  intros P A B. pose proof (part_nodup _ P) as ND. unfold all in ND.
  assert (X : forall a, In a (spare s) -> In a (concat (map s_inputs (steps s))) -> False).
  { intros a I J. clear - ND I J. induction (spare s); simpl in *; [tauto|]. inversion ND; subst.
    destruct I as [->|I]; auto. apply H1. apply in_or_app; auto. }
  destruct p as [|k], q as [|j]; simpl in *; auto.
  - exfalso. destruct B as [x [N I]]. apply (X v); auto. apply in_concat_steps; eauto.
  - exfalso. destruct A as [x [N I]]. apply (X v); auto. apply in_concat_steps; eauto.
  - destruct A as [x [N I]], B as [y [N' I']]. f_equal. eapply two_steps_dup; eauto using part_steps_nodup.
Qed.

Lemma located_exists s v : part s -> In v inputs -> exists p, located s v p.
Proof.
  intros P I. apply (part_in s v P) in I. unfold all in I. apply in_app_or in I. destruct I as [I|I].
  - exists Spare; auto.
  - apply in_concat_steps in I. destruct I as [k [x [N J]]]. exists (InStep k); simpl; eauto.
Qed.

Lemma remove_first_other (v w : nat) l r :
  remove_first Nat.eqb v l = Ok r -> w <> v -> (In w r <-> In w l).
Proof.
  revert r; induction l as [|y l IH]; simpl; intros r H D; [discriminate|].
  destruct (Nat.eqb_spec v y).
  - inversion H; subst. split; auto. intros [->|]; congruence || auto.
  - destruct (remove_first Nat.eqb v l) eqn:E; simpl in H; inversion H; subst. simpl.
    rewrite (IH a eq_refl D). tauto.
Qed.

Lemma remove_from_step_other c v w s s' p :
  remove_from_step c v s = (s', None) -> w <> v -> (located s' w p <-> located s w p).
Proof.
  unfold remove_from_step. destruct (nth_error (steps s) c) as [x|] eqn:N; [|discriminate].
  destruct (remove_first Nat.eqb v (s_inputs x)) eqn:R; [|discriminate].
  intros H D; inversion H; subst; clear H. destruct p as [|k]; simpl; [tauto|].
  rewrite update_nth_nth. destruct (Nat.eqb_spec k c); [subst|tauto].
  rewrite N; simpl. split; intros [y [E I]]; inversion E; subst; eexists; split; eauto; simpl in *;
    apply (remove_first_other _ _ _ _ R D); auto.
Qed.

Lemma append_other k v w s p : w <> v -> (located (append_to_step k v s) w p <-> located s w p).
Proof.
  intros D. destruct p as [|j]; simpl; [tauto|]. rewrite update_nth_nth.
  destruct (Nat.eqb_spec j k); [|tauto]. subst.
  destruct (nth_error (steps s) k) as [x|]; simpl; [|split; intros [y [E _]]; discriminate].
  split; intros [y [E I]]; inversion E; subst; eexists; split; eauto; simpl in *.
  - apply in_app_or in I. simpl in I. destruct I as [I|[I|[]]]; congruence || auto.
  - apply in_or_app; auto.
Qed.

Lemma change_input_step_effect i new s s' v k :
  part s -> py_get inputs i = Ok v -> py_index (length (steps s)) new = Some k ->
  change_input_step i new s = (s', None) ->
  located s' v (InStep k)
  /\ forall w p, w <> v -> (located s' w p <-> located s w p).
Proof.
  intros P G K H. assert (H0 := H).
  pose proof (change_input_step_part _ _ _ _ _ P H) as [P' [L _]].
  unfold StepsModel.change_input_step in H. rewrite G, K in H.
  pose proof (find_input_step_char s v (part_steps_nodup s P)) as F.
  destruct (find_input_step s v) as [cur|]; [|discriminate].
  assert (O : forall w p, w <> v -> (located s' w p <-> located s w p)).
  { intros w p D. destruct cur as [c|].
    - rewrite (remove_from_step_other _ _ _ _ _ _ H D). apply append_other; auto.
    - simpl in H. destruct (remove_first Nat.eqb v (spare s)) eqn:R; inversion H; subst; clear H.
      destruct p as [|j].
      + simpl. apply (remove_first_other _ _ _ _ R D).
      + change (located (append_to_step k v s) w (InStep j) <-> located s w (InStep j)).
        apply append_other; auto. }
  split; auto.
  destruct (py_index_some_nth _ _ _ K) as [x N].
  destruct cur as [c|].
  - destruct F as [y [Ny Iy]]. unfold remove_from_step in H.
    rewrite append_nth in H. simpl.
    destruct (Nat.eqb_spec c k).
    + subst. rewrite N in Ny; inversion Ny; subst y. rewrite N in H; simpl in H.
      destruct (remove_first Nat.eqb v (s_inputs x ++ [v])) as [r|] eqn:R; [|discriminate].
      inversion H; subst s'; clear H. unfold append_to_step; simpl.
      rewrite !update_nth_nth, Nat.eqb_refl. rewrite N; simpl. eexists; split; eauto. simpl.
      assert (C : count_occ Nat.eq_dec r v >= 1).
      { apply (remove_first_inv _ nat_eqb_spec') in R. destruct R as [_ Q].
        rewrite (Permutation_count_occ Nat.eq_dec) in Q. specialize (Q v).
        rewrite count_occ_app in Q. simpl in Q. destruct (Nat.eq_dec v v); [|congruence].
        apply (count_occ_In Nat.eq_dec) in Iy. lia. }
      apply (count_occ_In Nat.eq_dec). lia.
    + rewrite Ny in H. destruct (remove_first Nat.eqb v (s_inputs y)) as [r|] eqn:R; [|discriminate].
      inversion H; subst s'; clear H. unfold append_to_step; simpl.
      rewrite update_nth_nth. destruct (Nat.eqb_spec k c); [congruence|].
      rewrite update_nth_nth, Nat.eqb_refl, N. simpl. eexists; split; eauto. simpl.
      apply in_or_app; simpl; auto.
  - simpl in H. destruct (remove_first Nat.eqb v (spare s)); inversion H; subst s'; simpl.
    rewrite update_nth_nth, Nat.eqb_refl, N. simpl. eexists; split; eauto. simpl.
    apply in_or_app; simpl; auto.
Qed.

Lemma change_input_step_succeeds i new s :
  part s -> is_ok (py_get inputs i) = true ->
  py_index (length (steps s)) new <> None ->
  exists s', change_input_step i new s = (s', None).
Proof.
  intros P G K.
  destruct (change_input_step i new s) as [s' [e|]] eqn:H; eauto.
  exfalso. unfold StepsModel.change_input_step in H.
  destruct (py_get inputs i) as [v|] eqn:Gv; [|discriminate].
  pose proof (find_input_step_char s v (part_steps_nodup s P)) as F.
  destruct (find_input_step s v) as [cur|]; [|contradiction].
  destruct (py_index (length (steps s)) new) as [k|] eqn:Kk; [|congruence].
  destruct (py_index_some_nth _ _ _ Kk) as [x N].
  apply py_get_ok in Gv. destruct Gv as [n [_ Gv]]. apply nth_error_In in Gv.
  destruct cur as [c|].
  - destruct F as [y [Ny Iy]].
    assert (E : exists y', nth_error (steps (append_to_step k v s)) c = Some y' /\ In v (s_inputs y')).
    { rewrite append_nth. destruct (Nat.eqb_spec c k).
      - rewrite Ny; simpl. eexists; split; eauto. simpl. apply in_or_app; auto.
      - eauto. }
    destruct E as [y' [Ey Iy']]. destruct (remove_from_step_ok _ _ _ _ Ey Iy') as [s1 R].
    rewrite R in H; discriminate.
  - assert (Isp : In v (spare s)).
    { apply (part_in s v P) in Gv. unfold all in Gv. apply in_app_or in Gv. tauto. }
    simpl in H. destruct (remove_first_ok _ nat_eqb_spec' v (spare s) Isp) as [r [R _]].
    rewrite R in H; discriminate.
Qed.

(** ** add_step_display: everything the displayed variable needs is provided at
    or before the step. *)
Lemma move_loop ups kz k previous s s' :
  part s -> py_index (length (steps s)) kz = Some k ->
  edit_loop (fun v s => if memb Nat.eqb v previous then (s, None)
           else match input_index inputs v with
           | None => (s, Some TypeError)
           | Some i => change_input_step (Z.of_nat i) kz s
           end) ups s = (s', None) ->
  part s' /\ length (steps s') = length (steps s)
  /\ (forall v, In v ups -> ~ In v previous -> located s' v (InStep k))
  /\ (forall v, ~ In v ups \/ In v previous -> forall p, located s' v p <-> located s v p).
Proof.
  revert s; induction ups as [|u ups IH]; simpl; intros s P K H.
  - inversion H; subst. split; auto. split; auto. split; [tauto|]. intros; tauto.
  - destruct (memb Nat.eqb u previous) eqn:M.
    + apply (memb_In _ nat_eqb_spec') in M.
      destruct (IH s P K H) as [P' [L [A B]]]. split; auto. split; auto. split.
      * intros v [->|I] N; [contradiction|exact (A v I N)].
      * intros v D p. apply B. tauto.
    + apply (memb_In_false _ nat_eqb_spec') in M.
      destruct (input_index inputs u) as [i|] eqn:I; [|discriminate].
      unfold input_index in I. apply (index_of_Some _ nat_eqb_spec') in I. destruct I as [I _].
      apply py_get_of_nat in I.
      destruct (change_input_step (Z.of_nat i) kz s) as [s1 [e|]] eqn:E; [discriminate|].
      pose proof (change_input_step_part _ _ _ _ _ P E) as [P1 [L1 _]].
      pose proof (change_input_step_effect _ _ _ _ _ _ P I K E) as [U O].
      rewrite <- L1 in K.
      destruct (IH s1 P1 K H) as [P' [L [A B]]]. split; auto. split; [congruence|]. split.
      * intros v [->|Iv] N; [|exact (A v Iv N)].
        destruct (in_dec Nat.eq_dec v ups) as [J|J]; [exact (A v J N)|]. exact (proj2 (B v (or_introl J) _) U).
      * intros v D p. assert (v <> u) by (intros ->; tauto).
        rewrite B by tauto. apply O; auto.
Qed.

Lemma py_prefix_index {A} (l : list A) i k : py_index (length l) i = Some k -> py_prefix i l = firstn k l.
Proof.
  unfold py_index, py_prefix. destruct (0 <=? i)%Z eqn:E.
  - apply Z.leb_le in E. destruct (i <? Z.of_nat (length l))%Z eqn:E2; intros H; inversion H; subst.
    apply Z.ltb_lt in E2. destruct (i <? 0)%Z eqn:E3; [apply Z.ltb_lt in E3; lia|].
    f_equal. lia.
  - apply Z.leb_gt in E. destruct (- Z.of_nat (length l) <=? i)%Z eqn:E2; intros H; inversion H; subst.
    apply Z.leb_le in E2. destruct (i <? 0)%Z eqn:E3; [|apply Z.ltb_ge in E3; lia].
    f_equal. lia.
Qed.

Variable upstream : Z -> res (list var).
Variable has_selector : Z -> string -> bool.
Notation exec := (exec inputs upstream has_selector).
Notation session := (session inputs upstream has_selector).

Lemma add_step_display_part v k sel s s' e :
  part s -> add_step_display inputs upstream has_selector v k sel s = (s', e) -> part s'.
Proof.
  intros P. unfold add_step_display.
  destruct (upstream v) as [ups|]; [|intros H; inversion H; subst; auto].
  match goal with |- context [edit_loop ?f ups s] => set (move := f) end.
  destruct (edit_loop move ups s) as [s1 e1] eqn:E.
  assert (P1 : part s1).
  { eapply edit_loop_inv; [|exact P|exact E].
    intros x s0 s2 e2 _ P0. unfold move. destruct (memb _ _ _); [intros H; inversion H; subst; auto|].
    destruct (input_index inputs x); [|intros H; inversion H; subst; auto].
    intros H. eapply change_input_step_part in H; eauto. tauto. }
  destruct e1; [intros H; inversion H; subst; auto|].
  destruct (py_index _ k); [|intros H; inversion H; subst; auto].
  destruct (has_selector v sel); intros H; inversion H; subst; auto.
  unfold in_exactly_one_place in *; simpl. rewrite update_nth_map; auto.
Qed.

Lemma exec_part o s s' e :
  sensible o -> part s -> exec o s = (s', e) ->
  (match o with RemoveInputFromStep _ => e = None | _ => True end) -> part s'.
Proof.
  intros SN P H X. destruct o; simpl in *.
  - eapply change_input_step_part in H; eauto; tauto.
  - eapply change_inputs_step_part; eauto.
  - subst e. apply remove_input_from_step_ok in H; tauto.
  - eapply reorder_step_inputs_part in H; eauto; tauto.
  - eapply insert_step_part in H; eauto; tauto.
  - eapply on_step_part in H; eauto; tauto.
  - eapply reorder_steps_part; eauto.
  - eapply remove_step_part in H; eauto; tauto.
  - destruct (reset_steps_exact s P) as [sp [E Q]]. rewrite E in H; inversion H; subst.
    unfold in_exactly_one_place; simpl. rewrite app_nil_r; auto.
  - eapply add_step_display_part; eauto.
  - eapply on_step_part in H; eauto; tauto.
  - eapply on_step_part in H; eauto; tauto.
Qed.

Lemma session_part ops s s' es :
  Forall sensible ops -> part s -> session ops s = (s', es) ->
  removals_succeed ops es -> part s'.
Proof.
  revert s s' es; induction ops as [|o ops IH]; simpl; intros s s' es F P H R.
  - inversion H; subst; auto.
  - inversion F; subst. destruct (exec o s) as [s1 e] eqn:E.
    destruct (session ops s1) as [s2 es'] eqn:E2. inversion H; subst; clear H.
    assert (P1 : part s1).
    { eapply exec_part; eauto. destruct o; auto. apply (R 0 i e); reflexivity. }
    eapply IH; eauto. intros n i e' N1 N2. apply (R (S n) i e'); auto.
Qed.

Lemma add_step_display_effect vi kz k sel s s' ups :
  part s -> py_index (length (steps s)) kz = Some k -> upstream vi = Ok ups ->
  add_step_display inputs upstream has_selector vi kz sel s = (s', None) ->
  (exists x, nth_error (steps s') k = Some x /\ s_display x = Some (sel, ups, vi))
  /\ (forall v, In v ups -> exists j, j <= k /\ located s' v (InStep j))
  /\ (forall v, ~ In v ups -> forall p, located s' v p <-> located s v p).
Proof.
  intros P K U. unfold add_step_display. rewrite U. rewrite (py_prefix_index _ _ _ K).
  destruct (edit_loop _ ups s) as [s1 [e|]] eqn:E; [discriminate|].
  apply move_loop with (k := k) in E; auto. destruct E as [P1 [L [A B]]].
  rewrite L, K. destruct (has_selector vi sel); intros H; inversion H; subst; clear H.
  assert (Lc : forall v p, located (mkSt (spare s1) (update_nth k
         (fun x => mkStep (s_label x) (s_inputs x) (Some (sel, ups, vi)) (s_doc x)) (steps s1))) v p
         <-> located s1 v p).
  { intros v [|j]; simpl; [tauto|]. rewrite update_nth_nth. destruct (Nat.eqb_spec j k); [subst|tauto].
    destruct (nth_error (steps s1) k) as [x|]; simpl; [|split; intros [y [Q _]]; discriminate].
    split; intros [y [Q I]]; inversion Q; subst; eexists; split; eauto. }
  split; [|split].
  - simpl. rewrite update_nth_nth, Nat.eqb_refl. rewrite <- L in K.
    destruct (py_index_some_nth _ _ _ K) as [x N]. rewrite N; simpl. eauto.
  - intros v I. destruct (in_dec Nat.eq_dec v (concat (map s_inputs (firstn k (steps s))))) as [J|J].
    + assert (J0 := J). apply in_concat_steps in J. destruct J as [j [x [N Iv]]].
      assert (j < k). { assert (X : nth_error (firstn k (steps s)) j <> None) by congruence.
        apply nth_error_Some in X. rewrite firstn_length in X. lia. }
      exists j; split; [lia|]. apply Lc. apply B; [auto|]. simpl. exists x; split; auto.
      rewrite <- (firstn_skipn k (steps s)). rewrite nth_error_app1; auto. apply nth_error_Some; congruence.
    + exists k; split; auto. apply Lc. apply A; auto.
  - intros v D p. rewrite Lc. apply B; auto.
Qed.

End P.

(** ** C20 helpers *)
Definition atomic_op (o : op) : Prop :=
  match o with
  | RemoveInputFromStep _ | ChangeInputsStep _ _ | AddStepDisplay _ _ _ => False
  | _ => True
  end.

Lemma exec_failure_unchanged inputs (ND : NoDup inputs) upstream has_selector o s s' e :
  atomic_op o -> in_exactly_one_place inputs s ->
  exec inputs upstream has_selector o s = (s', Some e) -> s' = s.
Proof.
  intros A P H. destruct o; simpl in *; try contradiction.
  - apply change_input_step_part in H; auto. apply H; discriminate.
  - unfold reorder_step_inputs in H.
    repeat match type of H with
           | context [match ?x with _ => _ end] => destruct x; try (inversion H; subst; auto; fail)
           end.
  - apply (insert_step_part inputs) in H; auto. destruct H; discriminate.
  - eapply on_step_part in H; eauto. apply H; discriminate.
  - apply reorder_steps_err in H; auto.
  - apply remove_step_part in H; auto. apply H; discriminate.
  - destruct (reset_steps_exact inputs ND s P) as [sp [E _]]. congruence.
  - eapply on_step_part in H; eauto. apply H; discriminate.
  - eapply on_step_part in H; eauto. apply H; discriminate.
Qed.

Lemma remove_input_failure inputs (ND : NoDup inputs) i s s' e :
  in_exactly_one_place inputs s ->
  remove_input_from_step inputs i s = (s', Some e) ->
  (py_get inputs i = Err e /\ s' = s)
  \/ (exists v, py_get inputs i = Ok v /\ In v (spare s)
        /\ e = AttributeError /\ s' = mkSt (spare s ++ [v]) (steps s)).
Proof.
  intros P H. destruct (py_get inputs i) as [v|e0] eqn:G.
  - right. exists v. split; auto.
    apply py_get_ok in G. destruct G as [n [K G]].
    assert (E : remove_input_from_step inputs i s = remove_input_from_step inputs (Z.of_nat n) s).
    { unfold remove_input_from_step. rewrite (py_get_of_nat _ _ _ G). unfold py_get at 1. rewrite K, G. reflexivity. }
    rewrite E in H.
    destruct (located_exists inputs s v P (nth_error_In _ _ G)) as [[|k] Lc]; simpl in Lc.
    + rewrite (remove_input_from_step_spare inputs ND n s v P G Lc) in H. inversion H; subst. auto.
    + destruct Lc as [x [N I]].
      destruct (remove_input_from_step_succeeds inputs ND n s v k x P G N I) as [r [_ R]]. congruence.
  - left. unfold remove_input_from_step in H. rewrite G in H. inversion H; auto.
Qed.

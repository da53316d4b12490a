(** Comparison of workflow states. *)
From Coq Require Import String Bool ZArith Arith Lia Permutation List.
From Verif Require Import Base BaseProofs ExecModel ExecSpec ExecStruct ExecRuntime ExecProofs ExecRun ExecSim
  BranchModel StateModel StateProofs.
Import ListNotations.

Lemma filter_length_le {A} (f : A -> bool) l : List.length (filter f l) <= List.length l.
Proof. induction l as [|a l IH]; simpl; auto. destruct (f a); simpl; lia. Qed.

Lemma forallb_ext {A} (f g : A -> bool) l : (forall a, f a = g a) -> forallb f l = forallb g l.
Proof. intros H. induction l as [|a l IH]; simpl; congruence. Qed.

Section B.
Context {V : Type}.
Variable w : workflow.
Hypothesis WF : well_formed w.
Variable default : nat -> option V.
Variable lock_flag : nat -> bool.
Hypothesis LS : locks_sound default lock_flag.
Variable set_order : nat -> list nat -> list nat.
Hypothesis SO : forall b l, Permutation (set_order b l) l.
Variable o : nat.
Hypothesis OUT : output w = Some o.
Variable file_input : nat -> bool.
Variable is_none : V -> bool.
Variable veq : V -> V -> bool.
Variable vhash : V -> Z.
Variable none_hash wf_hash : Z.

Notation state := (state V).
Notation wstate := (@wstate V).
Notation state_hash := (state_hash w vhash none_hash wf_hash).
Notation state_eq := (state_eq w default lock_flag set_order file_input is_none veq vhash none_hash wf_hash).
Notation opt_eq := (opt_eq is_none veq).

Definition valued (x : wstate) : list nat := filter (fun p => has (s_pipe (core x) p)) (seq 0 (List.length (pipes w))).

Lemma opt_eq_refl (R : forall z, veq z z = true) a b : a = b -> opt_eq a b = true.
Proof. intros ->. destruct b; simpl; auto. Qed.

Lemma hash_count (x y : wstate) : sim (fun _ => False) (core x) (core y) -> (Z.of_nat (List.length (pipes w)) * 7 < 1000000000)%Z ->
  state_hash x = state_hash y <-> List.length (valued x) = List.length (valued y).
Proof.
  intros [] B. unfold StateModel.state_hash.
  assert (SI : sum_inputs w vhash (core x) = sum_inputs w vhash (core y)).
  { unfold sum_inputs. f_equal. apply map_ext. intros i. rewrite m_iv. reflexivity. }
  rewrite SI, m_out. fold (valued x) (valued y).
  assert (LX : List.length (valued x) <= List.length (pipes w)).
  { unfold valued. rewrite <- (seq_length (List.length (pipes w)) 0) at 2. apply filter_length_le. }
  assert (LY : List.length (valued y) <= List.length (pipes w)).
  { unfold valued. rewrite <- (seq_length (List.length (pipes w)) 0) at 2. apply filter_length_le. }
  split; [|intros ->; auto]. intros E.
  set (c := (wf_hash + opt_hash vhash none_hash (s_out (core y)) + sum_inputs w vhash (core y))%Z) in *.
  set (a := Z.of_nat (List.length (valued x))) in *. set (b := Z.of_nat (List.length (valued y))) in *.
  assert (M : (((c + a * 7) - (c + b * 7)) mod 1000000000 = 0)%Z).
  { rewrite Zminus_mod, E, Z.sub_diag. reflexivity. }
  assert (M2 : (((a - b) * 7) mod 1000000000 = 0)%Z) by (rewrite <- M; f_equal; ring).
  apply Z.mod_divide in M2; [|lia]. destruct M2 as [k Hk].
  assert (-1000000000 < (a - b) * 7 < 1000000000)%Z by lia.
  assert (k = 0)%Z by nia. lia.
Qed.

Lemma eq_count (x y : wstate) : (forall z, veq z z = true) -> (Z.of_nat (List.length (pipes w)) * 7 < 1000000000)%Z ->
  is_run y = is_run x -> sim (fun _ => False) (core x) (core y) -> (forall p, real_pipe w p -> pipe_flag y p = pipe_flag x p) ->
  exists b, state_eq x y = Ok b /\ (b = true <-> List.length (valued x) = List.length (valued y)).
Proof.
  intros R B IR H FL. unfold StateModel.state_eq. pose proof (hash_count x y H B) as HC.
  destruct (Z.eqb_spec (state_hash x) (state_hash y)) as [E|E]; cbn [negb].
  - rewrite IR, eqb_reflx. cbn [negb].
    destruct (runtime_blocks_ok w WF default lock_flag LS set_order SO o OUT) as [rt [Er _]].
    unfold progress. rewrite Er. cbn [bind fst]. eexists. split; [reflexivity|].
    split; [intros _; tauto|]. intros _. rewrite !andb_true_iff. destruct H. repeat split.
    + apply Nat.eqb_eq. f_equal. apply filter_ext. auto.
    + apply opt_eq_refl; auto.
    + apply forallb_forall. intros [i v] _. cbn [fst snd]. rewrite (opt_eq_refl R); auto.
    + apply forallb_forall. intros [n b] _. cbn [fst snd]. rewrite m_blk, eqb_reflx. cbn [andb].
      apply forallb_forall. intros v _. rewrite m_var. apply eqb_reflx.
    + apply forallb_forall. intros p J. rewrite FL; [apply eqb_reflx|]. apply in_seq in J. unfold real_pipe. lia.
  - exists false. split; auto. split; [discriminate|]. intros K. exfalso. tauto.
Qed.

Lemma filter_count {A} (f g : A -> bool) l : (forall a, In a l -> g a = true -> f a = true) ->
  List.length (filter f l) = List.length (filter g l) <-> (forall a, In a l -> f a = true -> g a = true).
Proof.
  induction l as [|a l IH]; intros H; simpl; [split; [intros _ b []|auto]|].
  assert (IHl := IH (fun b J => H b (or_intror J))).
  assert (LE : List.length (filter g l) <= List.length (filter f l)).
  { clear - H. assert (H' : forall b, In b l -> g b = true -> f b = true) by (intros; apply H; simpl; auto). clear H.
    induction l as [|b l IH]; simpl; auto. assert (Q := IH (fun c J => H' c (or_intror J))).
    pose proof (H' b (or_introl eq_refl)). destruct (g b), (f b); simpl; try lia. }
  pose proof (H a (or_introl eq_refl)) as Ha.
  destruct (f a) eqn:Fa, (g a) eqn:Ga; simpl.
  - split; [intros E b [<-|J]; auto; apply IHl; auto; lia|]. intros K. f_equal. apply IHl. intros; apply K; auto.
  - split; [intros; lia|]. intros K. rewrite (K a (or_introl eq_refl) Fa) in Ga. discriminate.
  - intuition discriminate.
  - split; [intros E b [<-|J] Fb; [congruence|apply IHl; auto]|]. intros K. apply IHl. intros; apply K; auto.
Qed.

Lemma valued_count (x y : wstate) : (forall p, real_pipe w p -> s_pipe (core y) p <> None -> s_pipe (core x) p <> None) ->
  List.length (valued x) = List.length (valued y) <-> (forall p, real_pipe w p -> s_pipe (core x) p <> None -> s_pipe (core y) p <> None).
Proof.
  intros H. unfold valued. rewrite filter_count.
  - split; intros K p.
    + intros R N. specialize (K p). unfold has in K. destruct (s_pipe (core x) p); [|congruence].
      destruct (s_pipe (core y) p); [discriminate|]. intros _. assert (false = true) by (apply K; auto; apply in_seq; unfold real_pipe in R; lia). discriminate.
    + intros J. apply in_seq in J. assert (R : real_pipe w p) by (unfold real_pipe; lia). specialize (K p R). unfold has.
      destruct (s_pipe (core x) p); [|discriminate]. destruct (s_pipe (core y) p); auto. exfalso. apply K; congruence.
  - intros p J. apply in_seq in J. assert (R : real_pipe w p) by (unfold real_pipe; lia). specialize (H p R). unfold has.
    destruct (s_pipe (core y) p); [|discriminate]. destruct (s_pipe (core x) p); auto. exfalso. apply H; congruence.
Qed.

(** What equal states share. *)
Lemma eq_agrees (x y : wstate) : state_eq x y = Ok true ->
  is_run x = is_run y
  /\ (exists n, progress w default lock_flag set_order (core x) = Ok n /\ exists m, progress w default lock_flag set_order (core y) = Ok m /\ fst n = fst m)
  /\ opt_eq (s_out (core x)) (s_out (core y)) = true
  /\ (forall i v, nth_error (inputs w) i = Some v -> file_input v = false -> opt_eq (s_iv (core x) i) (s_iv (core y) i) = true)
  /\ (forall n b, nth_error (blocks w) n = Some b -> s_blk (core x) n = s_blk (core y) n
        /\ forall v, In v (b_in b ++ b_out b) -> s_var (core x) v = s_var (core y) v)
  /\ (forall p, real_pipe w p -> pipe_flag x p = pipe_flag y p).
Proof.
  unfold StateModel.state_eq. destruct (Z.eqb_spec (state_hash x) (state_hash y)) as [E|E]; cbn [negb]; [|discriminate].
  destruct (Bool.eqb (is_run x) (is_run y)) eqn:IR; cbn [negb]; [|discriminate]. apply eqb_prop in IR.
  destruct (progress _ _ _ _ (core x)) as [n|]; cbn [bind]; [|discriminate].
  destruct (progress _ _ _ _ (core y)) as [m|]; cbn [bind]; [|discriminate].
  intros Q. injection Q as Q. rewrite !andb_true_iff in Q. destruct Q as [[[[Q1 Q2] Q3] Q4] Q5].
  rewrite forallb_forall in Q3, Q4, Q5. split; auto. split; [exists n; split; auto; exists m; split; auto; apply Nat.eqb_eq; auto|]. split; auto.
  split; [|split].
  - intros i v N Fv. assert (J : In (i, v) (enumerate (inputs w))) by (apply enumerate_In; auto). specialize (Q3 _ J). cbn [fst snd] in Q3.
    rewrite Fv, orb_false_r in Q3. exact Q3.
  - intros k b N. assert (J : In (k, b) (enumerate (blocks w))) by (apply enumerate_In; auto). specialize (Q4 _ J). cbn [fst snd] in Q4.
    apply andb_true_iff in Q4. destruct Q4 as [A B]. apply eqb_prop in A. split; auto. rewrite forallb_forall in B.
    intros v Iv. apply eqb_prop. auto.
  - intros p R. apply eqb_prop. apply Q5. apply in_seq. unfold real_pipe in R. lia.
Qed.

Lemma state_eq_sym (x y : wstate) : (forall a b, veq a b = veq b a) -> state_eq x y = state_eq y x.
Proof.
  intros V2. unfold StateModel.state_eq. rewrite (Z.eqb_sym (state_hash y)). destruct (negb _); auto.
  assert (BS : forall a b, Bool.eqb a b = Bool.eqb b a) by (intros [] []; auto).
  rewrite (BS (is_run y)). destruct (negb _); auto. unfold progress.
  destruct (runtime_blocks_ok w WF default lock_flag LS set_order SO o OUT) as [rt [Er _]]. rewrite Er. cbn [bind fst]. f_equal.
  assert (OS : forall a b, opt_eq a b = opt_eq b a) by (intros [a|] [b|]; simpl; auto).
  rewrite (OS (s_out (core y))), Nat.eqb_sym. f_equal; [f_equal; [f_equal|]|]; apply forallb_ext; intros a; rewrite ?(OS (s_iv (core y) _)), ?(BS (s_blk (core y) _)), ?(BS (pipe_flag y _)); auto.
  f_equal. apply forallb_ext. intros v. apply BS.
Qed.
End B.

(** Property C42: reading the arguments of a run. *)
From Coq Require Import Bool Arith Lia List.
From Verif Require Import Base BaseProofs ExecModel ExecSpec ExecStruct ExecRun RunArgsModel ExecProps.
Import ListNotations.

Section S.
Context {A V : Type}.
Variable w : workflow.
Variable default : nat -> option V.
Variable lock_flag : nat -> bool.
Variable deserialize : nat -> A -> res V.
Variable is_result_name : nat -> bool.
Variable as_string : A -> option V.
Variable is_none : V -> bool.
Notation read := (read_input default lock_flag deserialize is_result_name).
Notation dict_to_arguments := (dict_to_arguments w default lock_flag deserialize is_result_name as_string is_none).

(** The argument [d] gives for input number [i], variable [v], if [v] takes it. *)
Definition taken (d : list (nat * A)) (i v : nat) (a : A) : Prop := lock_flag v = false /\ lookup i d = Some a.

Lemma locked_false v : lock_flag v = false -> locked default lock_flag v = Ok false.
Proof. intros H. unfold locked. rewrite H. reflexivity. Qed.
Lemma locked_true v : locks_sound default lock_flag -> lock_flag v = true -> locked default lock_flag v = Ok true.
Proof. intros LS H. unfold locked. rewrite H. specialize (LS v H). destruct (default v); auto. congruence. Qed.

Lemma read_locked d s i v : locks_sound default lock_flag -> lock_flag v = true -> read d s (i, v) = Ok s.
Proof.
  intros LS H. unfold read_input. cbn [fst snd]. rewrite (locked_true v LS H).
  destruct (default v); destruct (lookup i d); reflexivity.
Qed.
Lemma read_absent d s i v : lock_flag v = false -> lookup i d = None ->
  read d s (i, v) = match default v with Some _ => Ok s | None => Err KeyError end.
Proof.
  intros H L. unfold read_input. cbn [fst snd]. rewrite L, (locked_false v H). destruct (default v); reflexivity.
Qed.
Lemma read_present d s i v a : lock_flag v = false -> lookup i d = Some a ->
  read d s (i, v) = let* x := deserialize v a in
    Ok (if is_result_name v then Some x else fst s, snd s ++ [(i, x)]).
Proof.
  intros H L. unfold read_input. cbn [fst snd]. rewrite L, (locked_false v H). destruct (default v); reflexivity.
Qed.

Definition values_of (d : list (nat * A)) (l : list (nat * nat)) (vals : list (nat * V)) : Prop :=
  forall i x, In (i, x) vals <-> exists v a, In (i, v) l /\ taken d i v a /\ deserialize v a = Ok x.

Lemma read_all d l : locks_sound default lock_flag -> NoDup (map fst l) -> forall s,
  match foldM (read d) l s with
  | Ok s' => exists vals, snd s' = snd s ++ vals /\ values_of d l vals /\ NoDup (map fst vals)
      /\ (forall i v, In (i, v) l -> lock_flag v = false -> default v = None -> lookup i d <> None)
      /\ (forall i v, In (i, v) l -> lock_flag v = false -> forall a, lookup i d = Some a -> exists x, deserialize v a = Ok x)
      /\ (fst s' = fst s \/ exists i v x, In (i, v) l /\ is_result_name v = true /\ fst s' = Some x /\ In (i, x) vals)
      /\ ((exists i v x, In (i, v) l /\ is_result_name v = true /\ In (i, x) vals) -> fst s' <> None)
  | Err e =>
      (e = KeyError /\ exists i v, In (i, v) l /\ lock_flag v = false /\ default v = None /\ lookup i d = None)
      \/ (exists i v a, In (i, v) l /\ taken d i v a /\ deserialize v a = Err e)
  end.
Proof.
  intros LS ND. induction l as [|[i v] l IH]; intros s.
  - simpl. exists []. rewrite app_nil_r. split; auto. split.
    { intros i x. split; [intros []|]. intros [v [a [[] _]]]. }
    split; [constructor|]. split; [intros i v []|]. split; [intros i v []|]. split; auto.
    intros [i [v [x [[] _]]]].
  - simpl in ND. inversion ND as [|? ? Ni ND']; subst. specialize (IH ND'). cbn [foldM].
    assert (SKIP : read d s (i, v) = Ok s ->
              (lock_flag v = false -> default v <> None /\ lookup i d = None) ->
      match bind (read d s (i, v)) (foldM (read d) l) with
      | Ok s' => exists vals, snd s' = snd s ++ vals /\ values_of d ((i, v) :: l) vals /\ NoDup (map fst vals)
          /\ (forall i0 v0, In (i0, v0) ((i, v) :: l) -> lock_flag v0 = false -> default v0 = None -> lookup i0 d <> None)
          /\ (forall i0 v0, In (i0, v0) ((i, v) :: l) -> lock_flag v0 = false -> forall a, lookup i0 d = Some a -> exists x, deserialize v0 a = Ok x)
          /\ (fst s' = fst s \/ exists i0 v0 x, In (i0, v0) ((i, v) :: l) /\ is_result_name v0 = true /\ fst s' = Some x /\ In (i0, x) vals)
          /\ ((exists i0 v0 x, In (i0, v0) ((i, v) :: l) /\ is_result_name v0 = true /\ In (i0, x) vals) -> fst s' <> None)
      | Err e =>
          (e = KeyError /\ exists i0 v0, In (i0, v0) ((i, v) :: l) /\ lock_flag v0 = false /\ default v0 = None /\ lookup i0 d = None)
          \/ (exists i0 v0 a, In (i0, v0) ((i, v) :: l) /\ taken d i0 v0 a /\ deserialize v0 a = Err e)
      end).
    { intros R Q. rewrite R. cbn [bind]. specialize (IH s). destruct (foldM (read d) l s) as [s'|e].
      - destruct IH as [vals [E [Vo [Nd [K1 [K2 [N1 N2]]]]]]]. exists vals. split; auto. split.
        { intros j x. rewrite (Vo j x). split.
          - intros [z [a [I R']]]. exists z, a. split; [right; auto|auto].
          - intros [z [a [[I|I] [[T1 T2] D]]]].
            + exfalso. inversion I; subst. destruct (Q T1) as [_ Q2]. congruence.
            + exists z, a. repeat split; auto. }
        split; auto. split.
        { intros j z [I|I]; [|eauto]. inversion I; subst. intros F Dn. destruct (Q F). congruence. }
        split.
        { intros j z [I|I]; [|eauto]. inversion I; subst. intros F a La. destruct (Q F). congruence. }
        split.
        { destruct N1 as [N1|[j [z [x [I R']]]]]; auto. right. exists j, z, x. split; [right; auto|auto]. }
        intros [j [z [x [[I|I] [Rn J]]]]].
        + inversion I; subst. exfalso. apply Vo in J. destruct J as [z' [a [I' [[T1 T2] _]]]].
          apply Ni. apply in_map_iff. exists (j, z'); auto.
        + apply N2. exists j, z, x. auto.
      - destruct IH as [[E [j [z [I R']]]]|[j [z [a [I R']]]]]; [left|right].
        + split; auto. exists j, z. split; [right; auto|auto].
        + exists j, z, a. split; [right; auto|auto]. }
    destruct (lock_flag v) eqn:Lv.
    { apply SKIP; [apply read_locked; auto|congruence]. }
    destruct (lookup i d) as [a|] eqn:La.
    + clear SKIP. rewrite (read_present d s i v a Lv La). destruct (deserialize v a) as [x|e] eqn:Dx; cbn [bind].
      * specialize (IH (if is_result_name v then Some x else fst s, snd s ++ [(i, x)])). cbn [fst snd] in IH.
        destruct (foldM (read d) l _) as [s'|e] eqn:F.
        -- destruct IH as [vals [E [Vo [Nd [K1 [K2 [N1 N2]]]]]]]. exists ((i, x) :: vals).
           split; [rewrite E, <- app_assoc; reflexivity|]. split.
           { intros j y. split.
             - intros [Q|J].
               + inversion Q; subst. exists v, a. split; [left; auto|]. split; [split; auto|auto].
               + apply Vo in J. destruct J as [z [b [I R']]]. exists z, b. split; [right; auto|auto].
             - intros [z [b [[I|I] [[T1 T2] D]]]].
               + inversion I; subst. left. congruence.
               + right. apply Vo. exists z, b. repeat split; auto. }
           split.
           { simpl. constructor; auto. intros J. apply in_map_iff in J. destruct J as [[j y] [Ej J]]. simpl in Ej. subst j.
             apply Vo in J. destruct J as [z [b [I _]]]. apply Ni. apply in_map_iff. exists (i, z); auto. }
           split.
           { intros j z [I|I]; [|eauto]. inversion I; subst. congruence. }
           split.
           { intros j z [I|I]; [|eauto]. inversion I; subst. intros _ b Lb. exists x. congruence. }
           split.
           { destruct N1 as [N1|[j [z [y [I [R1 [R2 R3]]]]]]].
             - destruct (is_result_name v) eqn:Rn; auto. right. exists i, v, x. simpl. auto.
             - right. exists j, z, y. simpl. auto. }
           intros [j [z [y [I [Rn [Q|J]]]]]].
           ++ inversion Q; subst j y. destruct I as [I|I].
              ** inversion I; subst z. rewrite Rn in N1. destruct N1 as [N1|[? [? [? [_ [_ [N1 _]]]]]]]; congruence.
              ** exfalso. apply Ni. apply in_map_iff. exists (i, z); auto.
           ++ apply N2. exists j, z, y. split; auto. destruct I as [I|I]; auto. inversion I; subst. exfalso.
              apply Vo in J. destruct J as [z' [b [I' _]]]. apply Ni. apply in_map_iff. exists (j, z'); auto.
        -- destruct IH as [[E [j [z [I R']]]]|[j [z [b [I R']]]]]; [left|right].
           ++ split; auto. exists j, z. split; [right; auto|auto].
           ++ exists j, z, b. split; [right; auto|auto].
      * right. exists i, v, a. split; [left; auto|]. split; [split; auto|auto].
    + destruct (default v) as [dv|] eqn:Dv.
      * apply SKIP; [rewrite read_absent, Dv; auto|]. intros _. split; [congruence|auto].
      * rewrite read_absent, Dv; auto. cbn [bind]. left. split; auto. exists i, v. simpl. auto.
Qed.

Lemma enumerate_fst {T} (l : list T) : map fst (enumerate l) = seq 0 (length l).
Proof.
  unfold enumerate. generalize 0. induction l as [|x l IH]; intros k; simpl; auto. f_equal. apply IH.
Qed.

(** The values read are those of the unlocked inputs the dictionary mentions, each
    once; a missing value is an error exactly for an unlocked input without default. *)
Theorem C42_arguments (d : list (nat * A)) :
  locks_sound default lock_flag ->
  match dict_to_arguments true d with
  | Ok (vals, name) =>
      NoDup (map fst vals)
      /\ (forall i x, In (i, x) vals <-> exists v a, nth_error (inputs w) i = Some v
            /\ lock_flag v = false /\ lookup i d = Some a /\ deserialize v a = Ok x)
      /\ (forall i v, nth_error (inputs w) i = Some v -> lock_flag v = false -> default v = None ->
            exists a, lookup i d = Some a)
  | Err e =>
      (e = KeyError /\ exists i v, nth_error (inputs w) i = Some v /\ lock_flag v = false
            /\ default v = None /\ lookup i d = None)
      \/ (exists i v a, nth_error (inputs w) i = Some v /\ lock_flag v = false
            /\ lookup i d = Some a /\ deserialize v a = Err e)
  end.
Proof.
  intros LS. unfold RunArgsModel.dict_to_arguments.
  assert (ND : NoDup (map fst (enumerate (inputs w)))) by (rewrite enumerate_fst; apply seq_NoDup).
  pose proof (read_all d (enumerate (inputs w)) LS ND (None, [])) as H.
  destruct (foldM (read d) (enumerate (inputs w)) (None, [])) as [s'|e]; cbn [bind].
  - destruct H as [vals [E [Vo [Nd [K1 [K2 _]]]]]]. cbn [snd app] in E. subst vals. split; auto. split.
    + intros i x. rewrite (Vo i x). split.
      * intros [v [a [I [[T1 T2] D]]]]. exists v, a. rewrite enumerate_In in I. auto.
      * intros [v [a [I [T1 [T2 D]]]]]. exists v, a. rewrite enumerate_In. repeat split; auto.
    + intros i v N F D. assert (L := K1 i v (proj2 (enumerate_In _ _ _) N) F D). destruct (lookup i d); eauto. congruence.
  - destruct H as [[E [i [v [I R]]]]|[i [v [a [I [[T1 T2] D]]]]]]; [left|right].
    + split; auto. exists i, v. rewrite <- enumerate_In. auto.
    + exists i, v, a. rewrite <- enumerate_In. auto.
Qed.

(** The name: a value given to an input meant for it, otherwise the string found at
    the index that follows the inputs. *)
Theorem C42_name (d : list (nat * A)) vals name :
  locks_sound default lock_flag ->
  dict_to_arguments true d = Ok (vals, name) ->
  let candidate := fun x => exists i v, nth_error (inputs w) i = Some v /\ is_result_name v = true /\ In (i, x) vals in
  ((forall x, ~ candidate x) ->
     name = match lookup (length (inputs w)) d with Some a => as_string a | None => None end)
  /\ ((exists x, candidate x) -> (forall x, candidate x -> is_none x = false) -> exists x, name = Some x /\ candidate x).
Proof.
  intros LS. unfold RunArgsModel.dict_to_arguments.
  assert (ND : NoDup (map fst (enumerate (inputs w)))) by (rewrite enumerate_fst; apply seq_NoDup).
  pose proof (read_all d (enumerate (inputs w)) LS ND (None, [])) as H.
  destruct (foldM (read d) (enumerate (inputs w)) (None, [])) as [s'|e]; cbn [bind]; [|discriminate].
  destruct H as [vals' [E [Vo [Nd [K1 [K2 [N1 N2]]]]]]]. cbn [snd fst app] in *. subst vals'.
  intros Q. injection Q as Q1 Q2. rewrite Q1 in *. subst name.
  set (candidate := fun x => exists i v, nth_error (inputs w) i = Some v /\ is_result_name v = true /\ In (i, x) vals).
  split.
  - intros NC. destruct N1 as [N1|[i [v [x [I [R1 [R2 R3]]]]]]].
    + rewrite N1. destruct (lookup (length (inputs w)) d) as [a|]; auto. destruct (as_string a); auto.
    + exfalso. apply (NC x). exists i, v. rewrite <- enumerate_In. auto.
  - intros [x [i [v [I [R J]]]]] HN. destruct N1 as [N1|[j [u [y [I' [R1 [R2 R3]]]]]]].
    + exfalso. apply N2; [|exact N1]. exists i, v, x. rewrite enumerate_In. auto.
    + exists y. assert (C : candidate y) by (exists j, u; rewrite <- enumerate_In; auto).
      rewrite R2, (HN y C). auto.
Qed.

(** Run arguments and run together: what an input starts from. *)
Theorem C42_run_starts_from (d : list (nat * A)) vals name :
  well_formed w -> locks_sound default lock_flag ->
  dict_to_arguments true d = Ok (vals, name) ->
  exists iv, input_values w default lock_flag vals = Ok iv
  /\ forall i v, nth_error (inputs w) i = Some v ->
     (lock_flag v = true -> iv i = default v)
     /\ (lock_flag v = false -> forall a, lookup i d = Some a -> exists x, deserialize v a = Ok x /\ iv i = Some x)
     /\ (lock_flag v = false -> lookup i d = None -> iv i = default v /\ default v <> None).
Proof.
  intros WF LS E. pose proof (C42_arguments d LS) as H. rewrite E in H. destruct H as [Nd [Vo K]].
  assert (FD : forall i v x, nth_error (inputs w) i = Some v -> In (i, x) vals ->
     find (fun ix => match nth_error (inputs w) (fst ix) with Some u => Nat.eqb u v | None => false end) vals = Some (i, x)).
  { intros i v x N I. clear - N I Nd WF. induction vals as [|[j y] vals IH]; [destruct I|].
    simpl in *. inversion Nd as [|? ? Nj Nd']; subst. destruct I as [I|I].
    - inversion I; subst. rewrite N, Nat.eqb_refl. reflexivity.
    - destruct (nth_error (inputs w) j) as [u|] eqn:Nu; auto. destruct (Nat.eqb_spec u v) as [->|D]; auto.
      exfalso. pose proof (inputs_nodup w WF) as NI. rewrite NoDup_nth_error in NI.
      assert (i = j) by (apply NI; [apply nth_error_Some; congruence|congruence]). subst j. apply Nj.
      apply in_map_iff. exists (i, x); auto. }
  assert (FN : forall i v, nth_error (inputs w) i = Some v -> (forall x, ~ In (i, x) vals) ->
     find (fun ix => match nth_error (inputs w) (fst ix) with Some u => Nat.eqb u v | None => false end) vals = None).
  { intros i v N NI. apply find_none_iff. intros [j y] J. simpl. destruct (nth_error (inputs w) j) as [u|] eqn:Nu; auto.
    destruct (Nat.eqb_spec u v) as [->|D]; auto. exfalso.
    pose proof (inputs_nodup w WF) as ND. rewrite NoDup_nth_error in ND.
    assert (i = j) by (apply ND; [apply nth_error_Some; congruence|congruence]). subst j. exact (NI y J). }
  pose proof (input_values_spec w WF default lock_flag LS vals Nd) as IV.
  destruct (input_values w default lock_flag vals) as [iv|e].
  - exists iv. split; auto. intros i v N. rewrite (IV i v N). unfold given_by. split; [|split].
    + intros ->. reflexivity.
    + intros F a La. rewrite F.
      assert (X : exists x, deserialize v a = Ok x).
      { pose proof E as E'. unfold RunArgsModel.dict_to_arguments in E'.
        pose proof (read_all d (enumerate (inputs w)) LS) as H. rewrite enumerate_fst in H.
        specialize (H (seq_NoDup _ _) (None, [])).
        destruct (foldM (read d) (enumerate (inputs w)) (None, [])) as [s'|e]; cbn [bind] in E'; [|discriminate].
        destruct H as [vals' [_ [_ [_ [_ [K2 _]]]]]]. exact (K2 i v (proj2 (enumerate_In _ _ _) N) F a La). }
      destruct X as [x D]. exists x. split; auto. rewrite (FD i v x N); auto. apply Vo. eauto 10.
    + intros F La. rewrite F. rewrite (FN i v N).
      * split; auto. intros D. destruct (K i v N F D). congruence.
      * intros x I. apply Vo in I. destruct I as [v' [a [_ [_ [Q _]]]]]. congruence.
  - exfalso. destruct IV as [_ [i [x [I L]]]]. apply Vo in I. destruct I as [v [a [N _]]].
    assert (i < length (inputs w)) by (apply nth_error_Some; congruence). lia.
Qed.

End S.

Print Assumptions C42_arguments.
Print Assumptions C42_name.
Print Assumptions C42_run_starts_from.

(** Inputs 0 (variable 0, locked at 7) and 1 (variable 9): the value given for 0 is
    ignored, the name comes from index 2. *)
Example C42_example :
  dict_to_arguments ex_w ex_default ex_lock (fun _ a => Ok a) (fun _ => false) (fun a => Some a) (fun _ => false)
    true [(0, 50); (1, 5); (2, 77)] = Ok ([(1, 5)], Some 77)
  /\ dict_to_arguments ex_w ex_default ex_lock (fun _ a => Ok a) (fun _ => false) (fun a => Some a) (fun _ => false)
    true [(0, 50)] = Err KeyError.
Proof. split; reflexivity. Qed.

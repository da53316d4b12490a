(** Texts of the lines of scripts: where the key of an input of a block is found. *)
From Coq Require Import ZArith Bool String Ascii Arith Decimal DecimalString List.
From Verif Require Import Base ExecModel VariablesModel ScriptModel ScriptGen RunScriptModel.
Import ListNotations.
Open Scope string_scope.
Open Scope list_scope.

Notation L := list_ascii_of_string.
Lemma L_app a b : L (a ++ b)%string = L a ++ L b.
Proof. induction a as [|c a IH]; simpl; congruence. Qed.
Lemma L_inj a b : L a = L b -> a = b.
Proof. intros E. rewrite <- (string_of_list_ascii_of_string a), <- (string_of_list_ascii_of_string b), E. reflexivity. Qed.

Lemma prefix_spec k s : prefix k s = true <-> exists v, s = (k ++ v)%string.
Proof.
  revert s. induction k as [|c k IH]; intros s.
  - split; [intros _; exists s; reflexivity|]. destruct s; reflexivity.
  - destruct s as [|d s]; simpl.
    + split; [discriminate|]. intros [v E]. discriminate.
    + destruct (ascii_dec c d) as [->|D].
      * rewrite IH. split; intros [v E]; exists v; [now rewrite E|inversion E; reflexivity].
      * split; [discriminate|]. intros [v E]. inversion E. congruence.
Qed.
Lemma contains_spec k s : contains k s = true <-> exists u v, s = (u ++ k ++ v)%string.
Proof.
  induction s as [|c s IH].
  - unfold contains. rewrite orb_false_r, prefix_spec. split.
    + intros [v E]. exists "", v. exact E.
    + intros [u [v E]]. destruct u; [|discriminate]. exists v. exact E.
  - change (contains k (String c s)) with (prefix k (String c s) || contains k s). rewrite orb_true_iff, prefix_spec, IH. split.
    + intros [[v E]|[u [v E]]]; [exists "", v; exact E|exists (String c u), v; simpl; now rewrite <- E].
    + intros [[|d u] [v E]]; [left; exists v; exact E|right; exists u, v; inversion E; reflexivity].
Qed.

(** ** Digits *)
Definition digit (c : ascii) : Prop := In c (L "0123456789").
Lemma dec_digits n : Forall digit (L (dec n)) /\ L (dec n) <> [].
Proof.
  unfold dec. generalize (Nat.to_uint n). intros d.
  assert (G : forall d, Forall digit (L (NilEmpty.string_of_uint d))).
  { clear. induction d; simpl; constructor; auto; unfold digit; simpl; tauto. }
  destruct d; try (split; [exact (G _)|discriminate]).
  split; [repeat constructor; unfold digit; simpl; tauto|discriminate].
Qed.

Lemma digits_prefix c c' d d' r r' : Forall digit d -> Forall digit d' -> ~ digit c -> ~ digit c' ->
  d ++ c :: r = d' ++ c' :: r' -> d = d' /\ r = r'.
Proof.
  intros D D' N N'. revert d' D'. induction D as [|x d X D IH]; intros d' D' E; destruct D' as [|y d' Y D']; inversion E; subst; auto; try contradiction.
  destruct (IH d' D') as [-> ->]; auto.
Qed.
Lemma digits_suffix c c' d d' r r' : Forall digit d -> Forall digit d' -> ~ digit c -> ~ digit c' ->
  r ++ c :: d = r' ++ c' :: d' -> d = d' /\ r = r' /\ c = c'.
Proof.
  intros D D' N N' E. assert (E2 := f_equal (@rev ascii) E). rewrite !rev_app_distr in E2. cbn [rev] in E2. rewrite <- !app_assoc in E2. cbn [app] in E2.
  apply digits_prefix in E2; auto using Forall_rev.
  destruct E2 as [Ed Er]. apply (f_equal (@rev ascii)) in Ed, Er. rewrite !rev_involutive in Ed, Er. subst. apply app_inv_head in E. inversion E. auto.
Qed.

Lemma split_unique {X} (c : X) a b a' b' : ~ In c a -> ~ In c b -> a ++ c :: b = a' ++ c :: b' -> a = a' /\ b = b'.
Proof.
  revert a'. induction a as [|x a IH]; intros [|y a'] Na Nb E; inversion E; subst; auto.
  - exfalso. apply Nb. apply in_or_app. right. left. reflexivity.
  - exfalso. apply Na. left. reflexivity.
  - destruct (IH a') as [-> ->]; auto. intros I. apply Na. right. exact I.
Qed.

Ltac not_in := let H := fresh in intros H; simpl in H; repeat (destruct H as [H|H]; [discriminate H|]); exact H.

Lemma digit_not c : ~ In c (L "0123456789") -> forall n, ~ In c (L (dec n)).
Proof. intros N n I. destruct (dec_digits n) as [D _]. rewrite Forall_forall in D. exact (N (D c I)). Qed.
Lemma dec_no_n n : ~ In "n"%char (L (dec n)).
Proof. apply digit_not. not_in. Qed.

Lemma sub_app n b : exists P, L (render_sub n b) = P ++ L b /\ ~ In "n"%char P.
Proof.
  induction n as [|n [P [E N]]]; [exists []; simpl; auto|]. exists (L "sub_" ++ P). cbn [render_sub]. rewrite L_app, E, app_assoc.
  split; auto. intros I. apply in_app_or in I. destruct I as [I|I]; auto. revert I. not_in.
Qed.
Lemma render_no_n x : ~ In "n"%char (L (render x)).
Proof.
  destruct x as [n b|]; [|not_in]. cbn [render]. destruct (sub_app n (render_base b)) as [P [-> N]].
  intros I. apply in_app_or in I. destruct I as [I|I]; auto. revert I. destruct b; cbn [render_base]; try not_in;
  rewrite L_app; intros I; apply in_app_or in I; (destruct I as [I|I]; [revert I; not_in|exact (dec_no_n _ I)]).
Qed.

(** A name, after any text, ends in block_j: it is the one of a block of index j. *)
Lemma render_block P x u j : P ++ L (render x) = u ++ L ("block_" ++ dec j)%string -> exists m, x = Sub m (NBlock j).
Proof.
  intros E. destruct (dec_digits j) as [D NE]. rewrite L_app in E. change (L "block_") with (L "block" ++ ["_"%char]) in E.
  rewrite <- app_assoc, app_assoc in E. cbn [app] in E.
  assert (W : forall Q s k, Q ++ L (s ++ "_" ++ dec k)%string = (u ++ L "block") ++ "_"%char :: L (dec j) -> dec k = dec j /\ Q ++ L s = u ++ L "block").
  { intros Q s k E1. rewrite !L_app in E1. change (L "_") with ["_"%char] in E1. cbn [app] in E1. rewrite app_assoc in E1.
    apply digits_suffix in E1; auto; try (apply dec_digits); try not_in. destruct E1 as [A [B _]]. split; auto. apply L_inj. exact A. }
  assert (W2 : forall Q c, ~ digit c -> Q ++ [c] = (u ++ L "block") ++ "_"%char :: L (dec j) -> False).
  { intros Q c Nd E1. apply (f_equal (@rev ascii)) in E1. rewrite !rev_app_distr in E1. cbn [rev] in E1. cbn [app] in E1.
    destruct (rev (L (dec j))) as [|y r] eqn:R.
    - apply NE. rewrite <- (rev_involutive (L (dec j))), R. reflexivity.
    - inversion E1; subst. apply Nd. rewrite Forall_forall in D. apply D. apply in_rev. rewrite R. left. reflexivity. }
  assert (W3 : forall Q c c', c <> c' -> Q ++ [c] = u ++ L "bloc" ++ [c'] -> False).
  { intros Q c c' Nc E1. rewrite app_assoc in E1. apply app_inj_tail in E1. destruct E1. contradiction. }
  destruct x as [m b|]; cbn [render] in E.
  - destruct (sub_app m (render_base b)) as [P2 [E2 _]]. rewrite E2, app_assoc in E. destruct b as [k|k|k| | |]; cbn [render_base] in E.
    + destruct (W _ "block" k E) as [Ek _]. apply dec_inj in Ek. subst. eauto.
    + destruct (W _ "variable" k E) as [_ E3]. exfalso. change (L "variable") with (L "variabl" ++ ["e"%char]) in E3. rewrite app_assoc in E3. eapply W3 in E3; auto. discriminate.
    + destruct (W _ "pipe" k E) as [_ E3]. exfalso. change (L "pipe") with (L "pip" ++ ["e"%char]) in E3. rewrite app_assoc in E3. eapply W3 in E3; auto. discriminate.
    + exfalso. change (L "blocks") with (L "block" ++ ["s"%char]) in E. rewrite app_assoc in E. apply W2 in E; auto. not_in.
    + exfalso. change (L "pipes") with (L "pipe" ++ ["s"%char]) in E. rewrite app_assoc in E. apply W2 in E; auto. not_in.
    + exfalso. change (L "workflow") with (L "workflo" ++ ["w"%char]) in E. rewrite app_assoc in E. apply W2 in E; auto. not_in.
  - exfalso. change (L "wfblock") with (L "wfbloc" ++ ["k"%char]) in E. rewrite app_assoc in E. apply W2 in E; auto. not_in.
Qed.

(** ** Lines *)
Definition hit (l : stmt) (j i : nat) : Prop :=
  match l with
  | SLock x i' => (exists m, x = Sub m (NBlock j)) /\ i' = i
  | SPipe _ _ (VIn x i') => (exists m, x = Sub m (NBlock j)) /\ i' = i
  | _ => False
  end.
Definition fed_by_output (l : stmt) : Prop := match l with SPipe _ (VIn _ _) _ => False | _ => True end.

Lemma key_split j i : L (input_key j i) = (L ("block_" ++ dec j)%string ++ L ".i") ++ "n"%char :: L "puts[" ++ L (dec i) ++ L "]".
Proof. unfold input_key. rewrite !L_app. rewrite <- !app_assoc. reflexivity. Qed.

Lemma found P x i' R u v j i : ~ In "n"%char P -> ~ In "n"%char R ->
  P ++ L (render x) ++ L ".inputs[" ++ L (dec i') ++ L "]" ++ R = u ++ L (input_key j i) ++ v -> (exists m, x = Sub m (NBlock j)) /\ i' = i.
Proof.
  intros NP NR E. rewrite key_split in E.
  assert (E2 : (P ++ L (render x) ++ L ".i") ++ "n"%char :: (L "puts[" ++ L (dec i') ++ L "]" ++ R)
             = (u ++ L ("block_" ++ dec j)%string ++ L ".i") ++ "n"%char :: (L "puts[" ++ L (dec i) ++ L "]" ++ v)).
  { etransitivity; [|etransitivity; [exact E|]].
    - rewrite <- !app_assoc. reflexivity.
    - rewrite <- !app_assoc. cbn [app]. rewrite <- ?app_assoc. reflexivity. }
  clear E. apply split_unique in E2.
  - destruct E2 as [El Er]. split.
    + rewrite !app_assoc in El. apply app_inv_tail in El. eapply render_block; eauto.
    + apply app_inv_head in Er. change (L "]") with ["]"%char] in Er. cbn [app] in Er. apply digits_prefix in Er; try apply dec_digits; try not_in.
      apply dec_inj, L_inj, (proj1 Er).
  - intros I. apply in_app_or in I. destruct I as [I|I]; auto. apply in_app_or in I. destruct I as [I|I]; [exact (render_no_n _ I)|revert I; not_in].
  - intros I. apply in_app_or in I. destruct I as [I|I]; [revert I; not_in|]. apply in_app_or in I. destruct I as [I|I]; [exact (dec_no_n _ I)|].
    apply in_app_or in I. destruct I as [I|I]; [revert I; not_in|auto].
Qed.

Lemma line_hit l j i : fed_by_output l -> contains (input_key j i) (line_text l) = true <-> hit l j i.
Proof.
  intros F. rewrite contains_spec. split.
  - intros [u [v E]]. apply (f_equal L) in E. rewrite !L_app in E.
    assert (NK : In "n"%char (L (input_key j i))) by (rewrite key_split; apply in_or_app; right; left; reflexivity).
    assert (NN : In "n"%char (L (line_text l))) by (rewrite E; apply in_or_app; right; apply in_or_app; left; exact NK).
    destruct l as [| |x i'| | |x s t| |]; try (exfalso; revert NN; not_in).
    + cbn [line_text hit] in *. rewrite !L_app in E. apply (found [] x i' (L ".lock()") (L u) (L v)); try not_in. exact E.
    + assert (NP : ~ In "n"%char (L (render x) ++ L " = Pipe(" ++ L (vref_text s) ++ L ", ")).
      { intros I. apply in_app_or in I. destruct I as [I|I]; [exact (render_no_n _ I)|].
        apply in_app_or in I. destruct I as [I|I]; [revert I; not_in|]. apply in_app_or in I. destruct I as [I|I]; [|revert I; not_in].
        destruct s as [y|y k|y k]; cbn [vref_text] in I; [exact (render_no_n _ I)|destruct F|]. rewrite !L_app in I.
        apply in_app_or in I. destruct I as [I|I]; [exact (render_no_n _ I)|].
        apply in_app_or in I. destruct I as [I|I]; [revert I; not_in|]. apply in_app_or in I. destruct I as [I|I]; [exact (dec_no_n _ I)|revert I; not_in]. }
      cbn [line_text] in *. rewrite !L_app in E, NN. rewrite !app_assoc in NN. apply in_app_or in NN. destruct NN as [NN|NN]; [|exfalso; revert NN; not_in].
      apply in_app_or in NN. destruct NN as [NN|NN]; [exfalso; rewrite <- !app_assoc in NN; exact (NP NN)|].
      destruct t as [y|y i'|y k]; cbn [vref_text hit] in *.
      * exfalso. exact (render_no_n _ NN).
      * rewrite !L_app in E. apply (found (L (render x) ++ L " = Pipe(" ++ L (vref_text s) ++ L ", ") y i' (L ")") (L u) (L v)); auto; try not_in.
        rewrite <- !app_assoc in *. exact E.
      * exfalso. rewrite !L_app in NN. apply in_app_or in NN. destruct NN as [I|I]; [exact (render_no_n _ I)|].
        apply in_app_or in I. destruct I as [I|I]; [revert I; not_in|]. apply in_app_or in I. destruct I as [I|I]; [exact (dec_no_n _ I)|revert I; not_in].
  - assert (S1 : forall m, exists u, render (Sub m (NBlock j)) = (u ++ "block_" ++ dec j)%string).
    { induction m as [|m [u E]]; [exists ""; reflexivity|]. exists ("sub_" ++ u)%string. cbn [render render_sub] in *. rewrite E. reflexivity. }
    assert (AS : forall a b c, ((a ++ b) ++ c)%string = (a ++ b ++ c)%string) by (clear; induction a; simpl; intros; congruence).
    unfold input_key. destruct l as [| |x i'| | |x s t| |]; cbn [hit line_text]; try contradiction.
    + intros [[m ->] ->]. destruct (S1 m) as [u E]. exists u, ".lock()". rewrite E, !AS. reflexivity.
    + destruct t as [y|y i'|y k]; try contradiction. intros [[m ->] ->]. destruct (S1 m) as [u E]. cbn [vref_text]. rewrite E.
      exists (render x ++ " = Pipe(" ++ vref_text s ++ ", " ++ u)%string, ")". rewrite !AS. reflexivity.
Qed.

(** ** Names of values *)
Lemma render_value_inj x y : render_value x = render_value y -> x = y.
Proof.
  assert (U : forall n, ~ In "_"%char (L (dec n))) by (apply digit_not; not_in).
  assert (P : forall a b, ("value_" ++ a)%string = ("value_" ++ b)%string -> L a = L b) by (intros a b E; simpl in E; inversion E; auto).
  destruct x as [j i|k], y as [j' i'|k']; cbn [render_value]; intros E; apply P in E; rewrite ?L_app in E.
  - change (L "_") with ["_"%char] in E. cbn [app] in E. apply split_unique in E; auto. destruct E as [A B]. apply L_inj, dec_inj in A, B. congruence.
  - exfalso. apply (U k'). rewrite <- E. apply in_or_app. right. left. reflexivity.
  - exfalso. apply (U k). rewrite E. apply in_or_app. right. left. reflexivity.
  - apply L_inj, dec_inj in E. congruence.
Qed.

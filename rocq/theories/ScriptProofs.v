(** Blocks written and built anew, imports. *)
From Coq Require Import ZArith Bool String Ascii Arith Lia List.
From Verif Require Import Base BaseProofs ExecModel ExecSpec WiringSpec VariablesModel ScriptModel ScriptSpec.
Import ListNotations.
Open Scope string_scope.
Open Scope list_scope.

(** ** Imports *)
Lemma string_eqb_iff (a b : string) : String.eqb a b = true <-> a = b.
Proof. apply String.eqb_eq. Qed.
Lemma memb_string s l : memb String.eqb s l = true <-> In s l.
Proof. apply (memb_In _ string_eqb_iff). Qed.

Lemma add_import_spec d c c' : NoDup (map fst d) ->
  NoDup (map fst (add_import d c)) /\ (imported (add_import d c) c' <-> imported d c' \/ c' = c).
Proof.
  intros ND.
  assert (K : forall m, In m (map fst (add_import d c)) <-> In m (map fst d) \/ m = c_module c).
  { clear ND. intros m. unfold add_import. induction d as [|[k l] d IH]; simpl; [intuition|].
    destruct (String.eqb k (c_module c)) eqn:E; simpl.
    - apply String.eqb_eq in E. subst. intuition.
    - rewrite IH. intuition. }
  split.
  - clear c'. revert ND. induction d as [|[k l] d IH]; intros ND.
    + simpl. constructor; [intros []|constructor].
    + simpl. simpl in ND. inversion ND as [|? ? NI ND']; subst. destruct (String.eqb k (c_module c)) eqn:E; simpl; constructor; auto.
      * intros J. change (In k (map fst (add_import d c))) in J.
        assert (J' : In k (map fst d) \/ k = c_module c).
        { clear - J. revert J. unfold add_import. induction d as [|[m l] d IH]; simpl; [intuition|].
          destruct (String.eqb m (c_module c)) eqn:E; simpl; [intuition|]. intros [->|J]; auto. apply IH in J. intuition. }
        destruct J' as [?|E']; [contradiction|]. subst k. rewrite String.eqb_refl in E. discriminate.
      * change (NoDup (map fst (add_import d c))). apply IH; auto. clear - ND'. intros m. unfold add_import.
        induction d as [|[k l] d IH]; simpl; [intuition|].
        destruct (String.eqb k (c_module c)) eqn:E; simpl.
        { apply String.eqb_eq in E. subst. intuition. }
        { simpl in ND'. inversion ND'; subst. rewrite IH by auto. intuition. }
  - clear K. unfold imported. induction d as [|[k l] d IH]; simpl.
    + split.
      * intros [l [[E|[]] J]]. inversion E; subst. destruct J as [J|[]]. right. destruct c', c; simpl in *; congruence.
      * intros [[l [[] _]]| ->]. exists [c_name c]. simpl. auto.
    + simpl in ND. inversion ND as [|? ? NI ND']; subst. specialize (IH ND'). destruct (String.eqb k (c_module c)) eqn:E.
      * apply String.eqb_eq in E. subst k. clear IH. destruct (memb String.eqb (c_name c) l) eqn:M.
        { apply memb_string in M. split; [intros H; left; exact H|]. intros [H| ->]; auto. exists l. simpl. auto. }
        { split.
          - intros [l' [[E|J] I]].
            + inversion E; subst. apply in_app_or in I. destruct I as [I|[I|[]]].
              * left. exists l. split; [left; congruence|auto].
              * right. destruct c', c; simpl in *; congruence.
            + left. exists l'. auto.
          - intros [[l' [[E|J] I]]| ->].
            + exists (l ++ [c_name c]). split; [left; congruence|]. apply in_or_app. left. assert (l = l') by congruence. subst l'. exact I.
            + exists l'. split; [right; exact J|exact I].
            + exists (l ++ [c_name c]). split; [left; reflexivity|]. apply in_or_app. right. left. reflexivity. }
      * change ((exists l0, In (c_module c', l0) ((k, l) :: add_import d c) /\ In (c_name c') l0) <->
          (exists l0, ((k, l) = (c_module c', l0) \/ In (c_module c', l0) d) /\ In (c_name c') l0) \/ c' = c).
        change ((exists l0, In (c_module c', l0) (add_import d c) /\ In (c_name c') l0) <-> (exists l0, In (c_module c', l0) d /\ In (c_name c') l0) \/ c' = c) in IH.
        split.
        { intros [l' [[E'|J] I]]; [left; eauto|]. destruct (proj1 IH (ex_intro _ l' (conj J I))) as [[l'' [J' I']]| ->]; auto. left. eauto. }
        { intros [[l' [[E'|J] I]]| ->].
          - exists l'. simpl. auto.
          - destruct (proj2 IH (or_introl (ex_intro _ l' (conj J I)))) as [l'' [J' I']]. exists l''. simpl. auto.
          - destruct (proj2 IH (or_intror eq_refl)) as [l'' [J' I']]. exists l''. simpl. auto. }
Qed.

Lemma import_dict_spec l : NoDup (map fst (import_dict l)) /\ forall c, imported (import_dict l) c <-> In c l.
Proof.
  unfold import_dict.
  assert (H : forall l d, NoDup (map fst d) -> NoDup (map fst (fold_left add_import l d))
     /\ forall c, imported (fold_left add_import l d) c <-> imported d c \/ In c l).
  { induction l0 as [|a l0 IH]; intros d ND; simpl; [intuition|].
    destruct (IH (add_import d a)) as [A B]; [apply (add_import_spec d a a ND)|]. split; auto.
    intros c. rewrite B, (proj2 (add_import_spec d a c ND)). intuition. }
  destruct (H l [] (NoDup_nil _)) as [A B]. split; auto. intros c. rewrite B. split; [|auto]. intros [[x [[] _]]|J]; auto.
Qed.

Lemma lookup_imported d n c : lookup d n = Some c -> imported d c /\ c_name c = n.
Proof.
  induction d as [|[m l] d IH]; simpl; [discriminate|]. destruct (lookup d n) as [c'|] eqn:L.
  - intros E. inversion E; subst c'. destruct (IH eq_refl) as [[l' [A B]] N]. split; auto. exists l'. simpl. auto.
  - destruct (memb String.eqb n l) eqn:M; [|discriminate]. intros E. inversion E; subst. apply memb_string in M.
    split; auto. exists l. simpl. auto.
Qed.
Lemma lookup_none d n c : lookup d n = None -> imported d c -> c_name c <> n.
Proof.
  induction d as [|[m l] d IH]; simpl; [intros _ [l [[] _]]|]. destruct (lookup d n) eqn:L; [discriminate|].
  destruct (memb String.eqb n l) eqn:M; [discriminate|]. intros _ [l' [[E|J] I]] <-.
  - inversion E; subst. apply memb_string in I. congruence.
  - apply (IH eq_refl (ex_intro _ l' (conj J I))). reflexivity.
Qed.

(** When no two classes of the same name are imported, every import is effective. *)
Lemma resolve_ok l c : (forall a b, In a l -> In b l -> c_name a = c_name b -> a = b) -> In c l ->
  lookup (import_dict l) (c_name c) = Some c.
Proof.
  intros U I. destruct (import_dict_spec l) as [_ S]. destruct (lookup (import_dict l) (c_name c)) as [c'|] eqn:L.
  - apply lookup_imported in L. destruct L as [J E]. apply S in J. f_equal. apply U; auto.
  - apply S in I. exfalso. apply (lookup_none _ _ _ L I). reflexivity.
Qed.

Lemma cls_eqb_refl c : cls_eqb c c = true.
Proof. unfold cls_eqb. rewrite !String.eqb_refl. reflexivity. Qed.

(** ** Texts *)
Lemma plain_spec q m s : plain q m s = true <-> quotable q m s.
Proof.
  unfold plain, quotable. rewrite forallb_forall. split; intros H c I; specialize (H c I).
  - apply andb_true_iff in H. destruct H as [H C]. apply andb_true_iff in H. destruct H as [A B].
    apply negb_true_iff in A, B. apply Ascii.eqb_neq in A, B. split; auto. split; auto. intros ->. simpl in C.
    apply negb_true_iff in C. apply Ascii.eqb_neq in C. exact C.
  - destruct H as [A [B C]]. apply Ascii.eqb_neq in A, B. rewrite A, B. simpl. destruct m; auto. simpl.
    apply negb_true_iff, Ascii.eqb_neq. auto.
Qed.

Section Blocks.
Context {V : Type}.
Variable params : cls -> string -> list (variable V string).
Variable text : string -> V.
Notation part := (@part V).
Notation st := (@st V).
Notation exec := (exec params text).
Notation constructed := (constructed params text).

(** ** Blocks that are not nested *)
Lemma pview_back imports (s : st) vs :
  (forall v, In v vs -> (pv_parallel v = true -> pv_attributes v <> [])
     /\ (pv_parallel v = false -> forall a, pv_attributes v = [a] -> String.length a = 1)) ->
  (forall v, In v vs -> lookup imports (if pv_parallel v then "ParallelView" else "ScatterView")
     = Some (in_blocks (if pv_parallel v then "ParallelView" else "ScatterView"))) ->
  exists xs, eval imports s (EList (map pview_script vs)) = Ok (VSeq xs) /\ mapM as_pview xs = Ok vs.
Proof.
  intros H R. cbn [eval].
  match goal with |- exists xs, bind (?g _) _ = _ /\ _ => set (go := g) end.
  enough (E : exists xs, go (map pview_script vs) = Ok xs /\ mapM as_pview xs = Ok vs).
  { destruct E as [xs [E1 E2]]. exists xs. rewrite E1. auto. }
  induction vs as [|v vs IH]; [exists []; auto|].
  destruct IH as [xs [E1 E2]]; [intros; apply H; simpl; auto|intros; apply R; simpl; auto|].
  specialize (H v (or_introl eq_refl)). specialize (R v (or_introl eq_refl)).
  assert (T : forall l, exists ys, (fix go l := match l with [] => Ok [] | e :: l' => let* v := eval imports s e in let* r := go l' in Ok (v :: r) end)
     (map (EText sq) l) = Ok ys /\ mapM (fun x => as_text (Some x)) ys = Ok l).
  { induction l as [|a l [ys [A B]]]; [exists []; auto|]. exists (VText a :: ys). cbn [map]. split; [cbn [eval bind]; rewrite A; reflexivity|].
    cbn [mapM]. change (as_text (Some (@VText V a))) with (Ok a). cbn [bind]. rewrite B. reflexivity. }
  destruct v as [par l n]. simpl in H, R.
  assert (X : exists x, eval imports s (pview_script (mkView par l n)) = Ok x /\ as_pview x = Ok (mkView par l n)).
  { unfold pview_script. cbn [pv_parallel pv_attributes pv_name pview_class]. unfold pview_class. cbn [pv_parallel].
    destruct par.
    - destruct (T l) as [ys [A B]]. destruct H as [H _]. destruct l as [|a l]; [exfalso; apply H; reflexivity|].
      cbn [eval quoted]. unfold resolve. rewrite R. cbn [of_option bind]. rewrite A. cbn [bind]. eexists. split; [reflexivity|].
      cbn in B |- *. rewrite B. reflexivity.
    - destruct H as [_ H]. destruct l as [|a [|b l]].
      + eexists. cbn [eval quoted]. unfold resolve. rewrite R. split; reflexivity.
      + eexists. cbn [eval quoted map]. unfold resolve. rewrite R. cbn [of_option bind]. split; [reflexivity|]. cbn.
        specialize (H eq_refl a eq_refl). destruct a as [|c [|? ?]]; try discriminate. reflexivity.
      + destruct (T (a :: b :: l)) as [ys [A B]]. cbn [quoted]. cbn [map] in *. cbn [eval]. unfold resolve. rewrite R. cbn [of_option bind].
        cbn [eval bind] in A. rewrite A. cbn [bind]. eexists. split; [reflexivity|]. cbn in B |- *. rewrite B. reflexivity. }
  destruct X as [x [X1 X2]]. exists (x :: xs). split; [|cbn [mapM]; rewrite X2; cbn [bind]; rewrite E2; reflexivity].
  change (map pview_script (mkView par l n :: vs)) with (pview_script (mkView par l n) :: map pview_script vs).
  unfold go at 1. fold go. rewrite X1. cbn [bind]. rewrite E1. reflexivity.
Qed.

Definition kept_pos (c : conf) (p : Z * Z) : Z * Z := match c with CConcatStrings _ _ => (0, 0)%Z | _ => p end.

Lemma conf_back imports (s : st) c n nm pos : writable c nm -> n = List.length (fst (ports params text c)) ->
  (forall k, In k (conf_uses c) -> lookup imports (c_name k) = Some k) ->
  exists imps f args k vs, conf_script c n nm pos = Ok (imps, (f, args)) /\ resolve imports f = Ok k
    /\ eval_args imports s args = Ok vs /\ build k vs = Ok (Part (KConf c) nm (kept_pos c pos) : part).
Proof.
  intros W N R0'.
  assert (R : forall k, In k (conf_uses c) -> resolve imports (c_name k) = Ok k) by (intros; unfold resolve; rewrite R0' by auto; reflexivity).
  unfold eval_args. destruct c; simpl in W; try contradiction; try destruct v; cbn [conf_script view_name selector_name];
    do 2 eexists; eexists;
    try (match type of R with forall k, In k ?l -> _ => pose proof (R (nth 0 l (mkCls "" "")) (or_introl eq_refl)) as R0 end;
         cbn in R0).
  all: try (pose proof (R _ (or_intror (or_introl eq_refl))) as R1; cbn in R1).
  all: try (pose proof (R _ (or_intror (or_intror (or_introl eq_refl)))) as R2; cbn in R2).
  all: try (do 2 eexists; split; [reflexivity|]; split; [rewrite R0; reflexivity|]; cbn; rewrite ?R1; cbn; rewrite ?R2; cbn; split; reflexivity).
  - (* ModelMethod *) do 2 eexists. split; [reflexivity|]. split; [rewrite R0; reflexivity|]. cbn. rewrite R1. cbn. rewrite R2. cbn.
    split; [reflexivity|]. cbn. destruct W as [_ [_ W]]. destruct (String.eqb nm "") eqn:E; [apply String.eqb_eq in E; contradiction|].
    destruct nm; [discriminate|reflexivity].
  - (* Sequence *) subst n. cbn. rewrite map_length, seq_length. do 2 eexists. split; [reflexivity|]. split; [rewrite R0; reflexivity|]. split; reflexivity.
  - subst n. cbn. rewrite map_length, seq_length. do 2 eexists. split; [reflexivity|]. split; [rewrite R0; reflexivity|]. split; reflexivity.
  - (* MultiPlot *) do 2 eexists. split; [reflexivity|]. split; [rewrite R0; reflexivity|]. cbn. split; [reflexivity|]. cbn.
    assert (E : forall l, mapM (fun x : @val V => as_text (Some x)) (map VText l) = Ok l).
    { induction l as [|a l IH]; cbn [map mapM]; auto. change (as_text (Some (@VText V a))) with (Ok a). cbn [bind]. rewrite IH. reflexivity. }
    cbn in E. rewrite E. reflexivity.
  - (* MultiObject *) destruct (pview_back imports s views) as [xs [A B]].
    + intros v J. destruct W as [_ [_ W]]. destruct (W v J) as [_ [_ [W1 W2]]]. auto.
    + intros v J. specialize (R0' (in_blocks (if pv_parallel v then "ParallelView" else "ScatterView"))). cbn in R0'.
      apply R0'. right. apply in_map_iff. exists v. auto.
    + do 2 eexists. split; [reflexivity|]. split; [rewrite R0; reflexivity|]. cbn [mapM map fst snd].
      split; [change (eval imports s (EText sq selector)) with (Ok (A := @val V) (VText selector)); cbn [bind]; rewrite A; cbn [bind]; reflexivity|].
      cbn in B |- *. rewrite B. reflexivity.
  - (* Export *) do 2 eexists. split; [reflexivity|]. split; [rewrite R0; reflexivity|]. cbn. rewrite R1. cbn. rewrite R2. cbn.
    split; [reflexivity|]. cbn. destruct W as [_ [_ [_ [_ W]]]]. destruct filename; [contradiction|]. reflexivity.
Qed.
End Blocks.

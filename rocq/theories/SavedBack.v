(** A saved workflow comes back: numbering of the variables that are read. *)
From Coq Require Import ZArith Bool String Ascii Arith Lia List.
From Verif Require Import Base BaseProofs ExecModel ExecSpec ExecStruct WiringModel WiringSpec WiringProofs VariablesModel ScriptModel ScriptSpec SavedModel SavedSpec SavedProofs.
Import ListNotations.
Open Scope string_scope.
Open Scope list_scope.

(** position of a variable in a list *)
Definition rank (l : list nat) (v : nat) : nat := match index_of Nat.eqb v l with Some i => i | None => 0 end.

Lemma rank_nth l i v : NoDup l -> nth_error l i = Some v -> rank l v = i.
Proof.
  intros ND N. unfold rank. destruct (index_of Nat.eqb v l) as [k|] eqn:E.
  - apply (index_of_Some Nat.eqb nat_eqb_iff) in E. destruct E as [E _].
    rewrite NoDup_nth_error in ND. apply ND; [apply nth_error_Some|]; congruence.
  - apply (index_of_None Nat.eqb nat_eqb_iff) in E. apply nth_error_In in N. contradiction.
Qed.
Lemma nth_rank l v : In v l -> nth_error l (rank l v) = Some v.
Proof.
  intros I. unfold rank. destruct (index_of Nat.eqb v l) as [i|] eqn:E.
  - apply (index_of_Some Nat.eqb nat_eqb_iff) in E. tauto.
  - apply (index_of_None Nat.eqb nat_eqb_iff) in E. contradiction.
Qed.

Lemma map_rank_seq l pre k post : NoDup l -> l = pre ++ k ++ post -> map (rank l) k = seq (length pre) (length k).
Proof.
  intros ND E. apply nth_ext with (d := 0) (d' := 0); rewrite ?map_length, ?seq_length; auto.
  intros i Hi. rewrite seq_nth by lia.
  destruct (nth_error k i) as [v|] eqn:N; [|apply nth_error_None in N; lia].
  rewrite (nth_indep _ 0 (rank l v)) by (rewrite map_length; lia). rewrite map_nth.
  rewrite (nth_error_nth k i v N). apply rank_nth; auto.
  rewrite E, nth_error_app2 by lia. rewrite nth_error_app1; [|lia]. replace (length pre + i - length pre) with i by lia. auto.
Qed.

Lemma map_nth_seq {A} (dflt : A) pre mid post :
  map (fun v => nth v (pre ++ mid ++ post) dflt) (seq (length pre) (length mid)) = mid.
Proof.
  revert pre. induction mid as [|a mid IH]; intros pre; [reflexivity|]. cbn [length seq map].
  rewrite app_nth2, Nat.sub_diag by lia. cbn [nth app]. f_equal.
  specialize (IH (pre ++ [a])). rewrite app_length, Nat.add_comm in IH. cbn [length Nat.add] in IH.
  rewrite <- app_assoc in IH. exact IH.
Qed.

Lemma mapM_app {A B} (f : A -> res B) l m : mapM f (l ++ m) = let* a := mapM f l in let* b := mapM f m in Ok (a ++ b).
Proof.
  induction l as [|x l IH]; cbn [app mapM bind].
  - destruct (mapM f m); reflexivity.
  - destruct (f x); cbn [bind]; auto. rewrite IH. destruct (mapM f l); cbn [bind]; auto. destruct (mapM f m); reflexivity.
Qed.

Section Numbers.
Context {V : Type}.
Notation variable := (variable V tag).

Definition counts (x : list variable * list variable) (b : block) : Prop :=
  length (fst x) = length (b_in b) /\ length (snd x) = length (b_out b).

Lemma number_rename : forall (io : list (list variable * list variable)) (bs : list block) (l : list nat) pre post,
  NoDup l -> l = pre ++ flat_map (fun b => b_in b ++ b_out b) bs ++ post ->
  Forall2 counts io bs ->
  number (length pre) io = map (rename_block (rank l)) bs.
Proof.
  induction io as [|[i o] io IH]; intros bs l pre post ND E F; inversion F as [|? b ? bs' [L1 L2] F']; subst; [reflexivity|].
  cbn [number map flat_map fst snd] in *. unfold rename_block at 1.
  set (l := pre ++ ((b_in b ++ b_out b) ++ flat_map (fun b => b_in b ++ b_out b) bs') ++ post) in *.
  rewrite L1, L2.
  assert (A1 : map (rank l) (b_in b) = seq (length pre) (length (b_in b))).
  { apply (map_rank_seq l pre (b_in b) (b_out b ++ flat_map (fun b => b_in b ++ b_out b) bs' ++ post)); auto.
    subst l. rewrite <- !app_assoc. reflexivity. }
  assert (A2 : map (rank l) (b_out b) = seq (length pre + length (b_in b)) (length (b_out b))).
  { rewrite <- app_length. apply (map_rank_seq l (pre ++ b_in b) (b_out b) (flat_map (fun b => b_in b ++ b_out b) bs' ++ post)); auto.
    subst l. rewrite <- !app_assoc. reflexivity. }
  rewrite A1, A2. f_equal.
  replace (length pre + length (b_in b) + length (b_out b)) with (length (pre ++ b_in b ++ b_out b)) by (rewrite !app_length; lia).
  apply (IH bs' l _ post); auto. subst l. rewrite <- !app_assoc. reflexivity.
Qed.

Lemma number_info (dflt : variable) : forall (io : list (list variable * list variable)) pre post,
  Forall2 (fun x b => map (fun v => nth v (pre ++ all_ports io ++ post) dflt) (b_in b) = fst x
                      /\ map (fun v => nth v (pre ++ all_ports io ++ post) dflt) (b_out b) = snd x)
    io (number (length pre) io).
Proof.
  induction io as [|[i o] io IH]; intros pre post; [constructor|]. cbn [number]. constructor.
  - cbn [b_in b_out fst snd all_ports flat_map]. split.
    + rewrite <- !app_assoc. apply map_nth_seq.
    + rewrite <- app_length. rewrite <- !app_assoc.
      rewrite (app_assoc pre i (o ++ _)). apply map_nth_seq.
  - specialize (IH (pre ++ i ++ o) post). rewrite !app_length, Nat.add_assoc in IH.
    cbn [all_ports flat_map fst snd]. rewrite <- !app_assoc in *. exact IH.
Qed.

Lemma counts_length (io : list (list variable * list variable)) bs : Forall2 counts io bs ->
  length (all_ports io) = length (flat_map (fun b => b_in b ++ b_out b) bs).
Proof.
  intros F. induction F as [|[i o] b io bs [A B] F IH]; [reflexivity|]. cbn [all_ports flat_map fst snd] in *.
  rewrite !app_length in *. unfold all_ports in IH. lia.
Qed.

Lemma source_more bs nb more a v : source_of bs nb a = Ok v -> source_of bs (nb ++ more) a = Ok v.
Proof.
  destruct a as [n|b s k]; cbn [source_of]; auto. intros H. destruct (nth_error nb n) eqn:N; [|discriminate].
  rewrite nth_error_app1 by (apply nth_error_Some; congruence). rewrite N. exact H.
Qed.
Lemma target_more bs nb more a v : target_of bs nb a = Ok v -> target_of bs (nb ++ more) a = Ok v.
Proof.
  destruct a as [n|b s k]; cbn [target_of]; auto. intros H. destruct (nth_error nb n) eqn:N; [|discriminate].
  rewrite nth_error_app1 by (apply nth_error_Some; congruence). rewrite N. exact H.
Qed.

Lemma pipes_back d h more ps : well_formed d -> serialized_pipes d = Ok ps ->
  deserialize_pipes (map (rename_block h) (blocks d)) (map h (nonblock_variables d) ++ more) ps = Ok (pipes (relabel h d)).
Proof.
  intros WF. unfold serialized_pipes, deserialize_pipes. cbn [relabel pipes].
  assert (G : forall l, incl l (pipes d) -> forall ps, mapM (fun p => let* a := variable_indices d (fst p) in
                 let* b := variable_indices d (snd p) in Ok (a, b)) l = Ok ps ->
    mapM (fun p => let* s := source_of (map (rename_block h) (blocks d)) (map h (nonblock_variables d) ++ more) (fst p) in
                 let* t := target_of (map (rename_block h) (blocks d)) (map h (nonblock_variables d) ++ more) (snd p) in Ok (s, t)) ps
    = Ok (map (fun p => (h (fst p), h (snd p))) l)).
  { induction l as [|[s t] l IH]; intros I q H; cbn [mapM] in H; [inversion H; reflexivity|].
    assert (P : In (s, t) (pipes d)) by (apply I; simpl; auto).
    destruct (source_address d WF h s t P) as [a [A1 A2]].
    destruct (target_address d WF h s t P) as [b [B1 [B2 _]]].
    cbn [fst snd] in H. rewrite A1, B1 in H. cbn [bind] in H.
    destruct (mapM _ l) as [r|e] eqn:R; [|discriminate]. cbn [bind] in H. inversion H; subst q. cbn [mapM fst snd].
    rewrite (source_more _ _ more _ _ A2), (target_more _ _ more _ _ B2). cbn [bind].
    rewrite (IH (fun x J => I x (or_intror J)) r eq_refl). reflexivity. }
  intros H. apply (G (pipes d) (incl_refl _)). exact H.
Qed.

Lemma addresses_back d h l a : well_formed d -> separates h d -> incl l (variables d) ->
  mapM (variable_indices d) l = Ok a -> mapM (variable_from_index (relabel h d)) a = Ok (map h l).
Proof.
  intros WF SEP. revert a. induction l as [|v l IH]; intros a I H; cbn [mapM] in H; [inversion H; reflexivity|].
  destruct (copied_variable d h WF SEP v (I v (or_introl eq_refl))) as [x [A B]]. rewrite A in H. cbn [bind] in H.
  destruct (mapM _ l) as [r|e] eqn:R; [|discriminate]. cbn [bind] in H. inversion H; subst a. cbn [mapM map]. rewrite B. cbn [bind].
  rewrite (IH r (fun x J => I x (or_intror J)) eq_refl). reflexivity.
Qed.

Lemma steps_back d h ss sd : well_formed d -> separates h d ->
  (forall s, In s ss -> incl (st_inputs s) (variables d) /\ incl (st_group_inputs s) (variables d)) ->
  mapM (write_step d) ss = Ok sd -> mapM (read_step (relabel h d)) sd = Ok (map (step_back h) ss).
Proof.
  intros WF SEP. revert sd. induction ss as [|s ss IH]; intros sd I H; cbn [mapM] in H; [inversion H; reflexivity|].
  destruct (I s (or_introl eq_refl)) as [I1 I2].
  destruct (write_step d s) as [x|e] eqn:W; [|discriminate]. cbn [bind] in H.
  destruct (mapM _ ss) as [r|e] eqn:R; [|discriminate]. cbn [bind] in H. inversion H; subst sd. clear H.
  cbn [mapM map]. rewrite (IH r (fun x J => I x (or_intror J)) eq_refl). clear R IH.
  unfold write_step in W. destruct (mapM (variable_indices d) (st_inputs s)) as [a|] eqn:A; [|discriminate].
  destruct (mapM (variable_indices d) (st_group_inputs s)) as [g|] eqn:G; [|discriminate]. cbn [bind] in W. inversion W; subst x. clear W.
  unfold read_step. cbn [sd_inputs sd_group_inputs sd_display sd_label sd_group_id sd_doc sd_index sd_id].
  rewrite (addresses_back d h _ a WF SEP I1 A), (addresses_back d h _ g WF SEP I2 G). cbn [bind].
  unfold step_back. destruct (st_display s) as [x|]; cbn [option_map].
  - pose proof (display_back x) as D. unfold write_display in *. rewrite D. reflexivity.
  - reflexivity.
Qed.

Lemma rank_separates d : well_formed d -> separates (rank (variables d)) d.
Proof.
  intros WF u v Iu Iv E. apply nth_rank in Iu, Iv. congruence.
Qed.

Lemma assemble_ok d (l : list (part V * (list variable * list variable))) nb more ps o ss sd descr doc nm :
  well_formed d -> Forall2 counts (map snd l) (blocks d) ->
  length nb = length (nonblock_variables d) ->
  serialized_pipes d = Ok ps -> serialized_output d = Ok o -> mapM (write_step d) ss = Ok sd ->
  (forall s, In s ss -> incl (st_inputs s) (variables d) /\ incl (st_group_inputs s) (variables d)) ->
  exists info', 
    assemble l (nb ++ more) ps o sd descr doc nm
    = Ok (Wf (relabel (rank (variables d)) d) info' (map fst l) (map (step_back (rank (variables d))) ss)
             (find_name (map (fun v => info' (rank (variables d) v)) (nonblock_variables d)) []) descr doc nm)
    /\ map (fun v => info' (rank (variables d) v)) (nonblock_variables d) = nb
    /\ Forall2 (fun x b => map (fun v => info' (rank (variables d) v)) (b_in b) = fst x
                      /\ map (fun v => info' (rank (variables d) v)) (b_out b) = snd x) (map snd l) (blocks d).
Proof.
  intros WF F L P O S I. set (h := rank (variables d)).
  pose proof (variables_nodup d WF) as ND. pose proof (variables_split d WF) as SP.
  pose proof (rank_separates d WF) as SEP. fold h in SEP.
  assert (N : number 0 (map snd l) = map (rename_block h) (blocks d)).
  { apply (number_rename (map snd l) (blocks d) (variables d) [] (nonblock_variables d) ND); auto. }
  assert (Q : map h (nonblock_variables d) = seq (length (all_ports (map snd l))) (length nb)).
  { rewrite (counts_length _ _ F), L. apply (map_rank_seq _ (block_variables d) (nonblock_variables d) []); auto.
    rewrite app_nil_r. exact SP. }
  exists (fun v => nth v (all_ports (map snd l) ++ nb ++ more) (new_var "")).
  split; [|split].
  - unfold assemble. rewrite N, app_length, seq_app, <- Q.
    rewrite (pipes_back d h _ ps WF P). cbn [bind].
    destruct (output_roundtrip d WF h) as [o' [O1 O2]]. rewrite O1 in O. inversion O; subst o'. rewrite O2. cbn [bind].
    change (mkWf (map (rename_block h) (blocks d)) (pipes (relabel h d)) (option_map h (output d))) with (relabel h d).
    rewrite (steps_back d h ss sd WF SEP I S). cbn [bind].
    rewrite (nbv_map d WF h SEP), map_map. reflexivity.
  - rewrite <- (map_map h (fun v => nth v (all_ports (map snd l) ++ nb ++ more) (new_var ""))), Q. apply map_nth_seq.
  - pose proof (number_info (new_var "") (map snd l) [] (nb ++ more)) as NI. cbn [app length] in NI. rewrite N in NI.
    clear - NI. revert NI. generalize (nb ++ more) as z. intros z.
    generalize (all_ports (map snd l) ++ z) as q. intros q. generalize (map snd l) as io. generalize (blocks d) as bs.
    induction bs as [|b bs IH]; intros io NI; inversion NI as [|x ? io' ? [A B] T]; subst; constructor; auto.
    cbn [rename_block b_in b_out] in A, B. rewrite map_map in A, B. auto.
Qed.
End Numbers.

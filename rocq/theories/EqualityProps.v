(** C45: equality and hash of workflows. *)
From Coq Require Import ZArith Bool String List Lia.
From Verif Require Import Base BaseProofs ExecModel ExecSpec ExecProofs WiringModel WiringSpec WiringProofs WiringProps ExecStruct
  EqualityModel EqualitySpec EqualityProofs.
Import ListNotations.
Open Scope string_scope.
Open Scope list_scope.
Open Scope nat_scope.

Section C45.
(** python's hashes *)
Variable hash_string : string -> Z.
Variable hash_number : Z -> Z.
Variable hash_address : option address -> Z.
Variable hash_display : option nat -> Z.
Variable hash_configuration : nat -> Z.
Notation hash := (wf_hash hash_string hash_number hash_address hash_display hash_configuration).
Notation equal := (wf_eq hash_string hash_number hash_address hash_display hash_configuration).

(** A workflow has a hash exactly when every step, also those of the workflows inside its
    blocks, displays a variable.  Otherwise hashing raises a TypeError, and so does [==]. *)
Theorem C45_hash w : regular w ->
  (indexed w -> exists h, hash w = Ok h)
  /\ (~ indexed w -> hash w = Err TypeError /\ forall w', equal w w' = Err TypeError).
Proof.
  intros R. destruct (whash_cases hash_string hash_number hash_address hash_display hash_configuration w R) as [H1 H2].
  split; auto. intros N. specialize (H2 N). split; auto. intros w'. rewrite weq_unfold, H2. auto.
Qed.

(** Equality is reflexive where it is defined, symmetric, and equal workflows have the same
    hash. *)
Theorem C45_reflexive w : regular w -> indexed w -> equal w w = Ok true.
Proof. intros R I. destruct (proj1 (C45_hash w R) I) as [h H]. eapply self_equal; eauto. Qed.

Theorem C45_symmetric w w' : equal w w' = Ok true -> equal w' w = Ok true.
Proof. apply weq_sym. Qed.

Theorem C45_same_hash w w' : equal w w' = Ok true -> exists h, hash w = Ok h /\ hash w' = Ok h.
Proof. intros H. apply weq_true in H. tauto. Qed.

(** A workflow whose blocks check the class of other blocks first compares with every
    workflow, whatever its blocks. *)
Theorem C45_comparison_answers w w' : regular w -> indexed w -> careful w -> regular w' -> indexed w' ->
  exists b, equal w w' = Ok b.
Proof. intros R I C R' I'. eapply careful_equal; eauto. Qed.

(** The copy of a workflow is equal to it: the same diagram over other variables, with the
    same names, types, locks, blocks and steps. *)
Theorem C45_copy d i ks ss f next : regular (Wf d i ks ss) -> indexed (Wf d i ks ss) ->
  (forall u v, In u (block_variables d) -> In v (block_variables d) -> f u = f v -> u = v) ->
  (forall v, In v (block_variables d) -> f v < next /\ ~ In (f v) (variables d)) ->
  (forall v, In v (variables d) -> v < next) ->
  exists h d', deepcopy f next d = Ok d' /\ (forall v, In v (block_variables d) -> h v = f v)
    /\ forall i', (forall v, In v (variables d) -> same_variable (i v) (i' (h v))) ->
         equal (Wf d i ks ss) (Wf d' i' ks ss) = Ok true /\ hash (Wf d' i' ks ss) = hash (Wf d i ks ss).
Proof.
  intros R I F1 F2 F3. inversion R as [? W L _]; subst. cbn [diagram] in W.
  destruct (C41_copy_same_diagram d f next W F1 F2 F3) as (h & E & S & _ & P & _).
  exists h, (relabel h d). split; auto. split; auto. intros i' J.
  destruct (proj1 (C45_hash _ R) I) as [x H].
  assert (EQ : forall v, In v (variables d) -> variable_equivalent (i v) (i' (h v)) = true).
  { intros v V. apply variable_equivalent_iff. auto. }
  assert (equal (Wf d i ks ss) (Wf (relabel h d) i' ks ss) = Ok true) as Q by (eapply relabel_equal; eauto).
  split; auto. destruct (C45_same_hash _ _ Q) as (y & -> & ->). auto.
Qed.

(** What equality says of two workflows with as many pipes, blocks, and ports block by
    block: they have the same diagram but for the order of pipes, inputs have the same
    name, type and lock, and blocks have the same class and the same configuration, but for
    what [same_kind] leaves out. *)
Theorem C45_sound w w' : let d := diagram w in let d' := diagram w' in
  well_formed d -> well_formed d' -> same_shape d d' ->
  List.length (kinds w) = List.length (blocks d) -> List.length (kinds w') = List.length (blocks d') ->
  equal w w' = Ok true ->
  exists h, separates h d
    /\ blocks d' = map (fun b => mkBlock (map h (b_in b)) (map h (b_out b))) (blocks d)
    /\ (forall s t, In (s, t) (pipes d') <-> exists s0 t0, In (s0, t0) (pipes d) /\ s = h s0 /\ t = h t0)
    /\ inputs d' = map h (inputs d)
    /\ Forall2 same_variable (map (info w) (inputs d)) (map (info w') (inputs d'))
    /\ forall n b k k', nth_error (blocks d) n = Some b -> nth_error (kinds w) n = Some k -> nth_error (kinds w') n = Some k' ->
         same_kind (fun w w' => equal w w' = Ok true) k k'
         /\ Forall2 same_variable (map (info w) (b_in b)) (map (info w') (map h (b_in b))).
Proof.
  intros d d' W W' S K K' E. exists (counterpart w w').
  split; [eapply counterpart_separates; eauto|]. split; [eapply blocks_counterpart; eauto|].
  split; [|split; [eapply inputs_counterpart; eauto|split; [eapply inputs_same; eauto|]]].
  - intros s t. eapply iff_trans; [exact (pipes_counterpart hash_string hash_number hash_address hash_display hash_configuration w w' W S E (s, t))|].
    cbn [pipes relabel]. rewrite in_map_iff. split.
    + intros ([s0 t0] & Q & I). injection Q as <- <-. eauto.
    + intros (s0 & t0 & I & -> & ->). exists (s0, t0). auto.
  - intros n b k k' B N N'.
    destruct (blocks_same hash_string hash_number hash_address hash_display hash_configuration w w' S K K' E n k k' b
      (mkBlock (map (counterpart w w') (b_in b)) (map (counterpart w w') (b_out b)))) as [A1 A2]; auto.
    rewrite (blocks_counterpart hash_string hash_number hash_address hash_display hash_configuration w w' W W' S K K' E).
    cbn [blocks relabel]. rewrite nth_error_map. fold d. rewrite B. auto.
Qed.

(** So, if their blocks compute the same, they give the same values to their variables. *)
Theorem C45_same_values {V} w w' (evaluate : nat -> list V -> res (list V)) (given given' : nat -> option V) :
  let d := diagram w in let d' := diagram w' in
  well_formed d -> well_formed d' -> same_shape d d' ->
  List.length (kinds w) = List.length (blocks d) -> List.length (kinds w') = List.length (blocks d') ->
  equal w w' = Ok true ->
  exists h, blocks d' = map (fun b => mkBlock (map h (b_in b)) (map h (b_out b))) (blocks d)
    /\ variables d' = map h (variables d)
    /\ ((forall v, In v (variables d) -> given' (h v) = given v) ->
        forall v x, In v (variables d) -> (has_value d' given' evaluate (h v) x <-> has_value d given evaluate v x)).
Proof.
  intros d d' W W' S K K' E. exists (counterpart w w').
  assert (SEP : separates (counterpart w w') d) by (eapply counterpart_separates; eauto).
  pose proof (blocks_counterpart hash_string hash_number hash_address hash_display hash_configuration w w' W W' S K K' E) as B.
  pose proof (pipes_counterpart hash_string hash_number hash_address hash_display hash_configuration w w' W S E) as P.
  split; [exact B|]. split; [eapply variables_counterpart; eauto|]. intros G v x I.
  rewrite <- (C41_same_diagram_same_values d (counterpart w w') evaluate given given' W SEP G v x I). split.
  - apply hv_pipes; [symmetry; exact B|]. intros p. symmetry. apply P.
  - apply hv_pipes; [exact B|]. exact P.
Qed.

(** Steps at the same rank have the same label, display and displayed variable,
    documentations of the same length and, when they have as many, the same inputs. *)
Theorem C45_steps w w' n s s' : equal w w' = Ok true -> nth_error (steps w) n = Some s -> nth_error (steps w') n = Some s' ->
  st_label s = st_label s' /\ st_display s = st_display s' /\ st_index s = st_index s'
  /\ String.length (st_doc s) = String.length (st_doc s')
  /\ (List.length (st_inputs s) = List.length (st_inputs s') -> Forall2 same_variable (st_inputs s) (st_inputs s'))
  /\ (List.length (st_group s) = List.length (st_group s') -> Forall2 same_variable (st_group s) (st_group s')).
Proof.
  intros H S S'. apply weq_true in H. destruct H as (_ & _ & _ & _ & H).
  assert (In (s, s') (combine (steps w) (steps w'))) as I.
  { clear H. revert n S S'. generalize (steps w'). induction (steps w) as [|x l IH]; intros [|x' l'] [|n] S S'; simpl in *; try discriminate.
    - injection S as ->. injection S' as ->. auto.
    - right. eauto. }
  rewrite forallb_forall in H. specialize (H _ I). cbn [fst snd] in H. unfold step_eqb in H.
  repeat match goal with Q : _ && _ = true |- _ => apply andb_prop in Q; destruct Q end.
  split; [apply String.eqb_eq; auto|]. split.
  { destruct (st_display s), (st_display s'); try discriminate; auto. f_equal. apply Nat.eqb_eq; auto. }
  split. { destruct (st_index s), (st_index s'); try discriminate; auto. f_equal. apply Z.eqb_eq; auto. }
  split; [apply Nat.eqb_eq; auto|].
  split; intros L; apply equivalent_same, all_equivalent_forall2; auto.
Qed.

(** The output is only compared through the hash. *)
Theorem C45_output bs ps o o' i ks ss h h' : let w := Wf (mkWf bs ps o) i ks ss in let w' := Wf (mkWf bs ps o') i ks ss in
  regular w -> regular w' -> hash w = Ok h -> hash w' = Ok h' -> equal w w' = Ok (Z.eqb h h').
Proof.
  intros w w' R R' H H'. destruct (Z.eqb h h') eqn:E.
  - apply Z.eqb_eq in E. subst h'. pose proof (self_equal _ _ _ _ _ w h H) as Q. apply weq_true in Q. apply weq_true.
    destruct Q as (_ & Q1 & Q2 & Q3 & Q4). split; [eauto|]. repeat split; auto.
  - rewrite weq_unfold, H, H'. cbn [bind]. rewrite E. auto.
Qed.
End C45.

Print Assumptions C45_hash.
Print Assumptions C45_reflexive.
Print Assumptions C45_symmetric.
Print Assumptions C45_same_hash.
Print Assumptions C45_comparison_answers.
Print Assumptions C45_copy.
Print Assumptions C45_sound.
Print Assumptions C45_same_values.
Print Assumptions C45_steps.
Print Assumptions C45_output.

(** ** Examples and refutations, for all hashes *)
Definition named (n : string) := {| v_name := n; v_type := 0; v_locked := false; v_default := None |}.
(** a block with inputs 0 and 1 and output 2, piped to a block with input 3 and output 4;
    the free variable 5 is piped to 1 *)
Definition ex_diagram := mkWf [mkBlock [0; 1] [2]; mkBlock [3] [4]] [(2, 3); (5, 1)] (Some 4).
Definition ex_info (v : nat) := named (match v with 0 => "wheels" | 1 | 5 => "name" | _ => "x" end).
Definition ex_step := {| st_label := "first"; st_inputs := [named "wheels"]; st_group := []; st_display := None; st_doc := ""; st_index := Some 0%Z |}.
Definition ex_wf := Wf ex_diagram ex_info [KInstantiate "Car" "type"; KModelAttribute "mass"] [ex_step].
Lemma ex_regular : regular ex_wf /\ indexed ex_wf.
Proof.
  split; constructor; simpl; auto.
  - constructor; simpl.
    + repeat constructor; simpl; intuition discriminate.
    + repeat constructor; simpl; intuition discriminate.
    + intros s t [H|[H|[]]]; injection H as <- <-; [exists (mkBlock [3] [4])|exists (mkBlock [0; 1] [2])]; simpl; auto.
    + intros s t b [H|[H|[]]] [<-|[<-|[]]]; injection H as <- <-; simpl; intuition discriminate.
    + intros o H. injection H as <-. exists (mkBlock [3] [4]). simpl; auto.
  - intros k w' [<-|[<-|[]]] H; inversion H.
  - intros s [<-|[]]; discriminate.
  - intros k w' [<-|[<-|[]]] H; inversion H.
Qed.
Section Examples.
Variable hash_string : string -> Z.
Variable hash_number : Z -> Z.
Variable hash_address : option address -> Z.
Variable hash_display : option nat -> Z.
Variable hash_configuration : nat -> Z.
Notation hash := (wf_hash hash_string hash_number hash_address hash_display hash_configuration).
Notation equal := (wf_eq hash_string hash_number hash_address hash_display hash_configuration).

(** the equality computes *)
Ltac hashes := apply weq_true; split; [eexists; rewrite !whash_unfold; split; reflexivity|repeat split; reflexivity].

Lemma differ w w' r : regular w -> indexed w -> hash w' = hash w ->
  (forall h, hash w = Ok h ->
    (if negb (all_equivalent (input_infos w) (input_infos w')) then Ok false
     else
      let* same_blocks := all_res (kind_equivalent hash_string hash_number hash_address hash_display hash_configuration)
                           (kinds w) (block_inputs w) (kinds w') (block_inputs w') in
      if negb same_blocks then Ok false
      else
       let* same_pipes := equivalent_pipes (diagram w) (diagram w') in
       if negb same_pipes then Ok false
       else Ok (forallb (fun ss => step_eqb (fst ss) (snd ss)) (combine (steps w) (steps w')))) = r) ->
  equal w w' = r.
Proof.
  intros R I E H. destruct (proj1 (C45_hash hash_string hash_number hash_address hash_display hash_configuration w R) I) as [h Hh].
  rewrite weq_unfold, E, Hh. cbn [bind]. rewrite Z.eqb_refl. cbn [negb]. eauto.
Qed.

Example C45_example : equal ex_wf ex_wf = Ok true
  /\ equal ex_wf (Wf (relabel (fun v => v + 10) ex_diagram) (fun v => ex_info (v - 10)) (kinds ex_wf) [ex_step]) = Ok true
  /\ equal ex_wf (Wf (mkWf (blocks ex_diagram) [(5, 1); (2, 3)] (Some 4)) ex_info (kinds ex_wf) [ex_step]) = Ok true
  /\ equal ex_wf (Wf (relabel (fun v => v + 10) ex_diagram) (fun v => ex_info (v - 10)) [KInstantiate "Car" "type"; KModelAttribute "size"] [ex_step]) = Ok false.
Proof.
  split; [apply C45_reflexive; apply ex_regular|]. split; [hashes|]. split; [hashes|].
  apply differ with (w := ex_wf); [apply ex_regular|apply ex_regular|reflexivity|]. intros h H. reflexivity.
Qed.

(** one block, whose inputs are numbered from 0 *)
Definition one (ins : list variable_info) (k : kind) (ss : list step) : wf :=
  Wf (mkWf [mkBlock (seq 0 (List.length ins)) [9]] [] (Some 9)) (fun v => nth v ins (named "y")) [k] ss.
Lemma one_regular ins k ss : List.length ins <= 9 -> (forall w, ~ inner k w) -> regular (one ins k ss)
  /\ ((forall s, In s ss -> st_index s <> None) -> indexed (one ins k ss)).
Proof.
  intros L N. split; [|intros S]; constructor; cbn [one diagram kinds steps blocks pipes]; auto.
  - constructor; cbn [one diagram kinds steps blocks pipes map].
    + unfold block_variables. cbn [flat_map blocks b_in b_out]. rewrite app_nil_r. apply NoDup_Add with (a := 9) (l := seq 0 (List.length ins)).
      * rewrite <- (app_nil_r (seq 0 _)) at 1. apply Add_app.
      * split; [apply seq_NoDup|]. rewrite in_seq. lia.
    + constructor.
    + intros ? ? [].
    + intros ? ? ? [].
    + intros o H. injection H as <-. eexists. split; [left; reflexivity|left; reflexivity].
  - intros k' w' [<-|[]] H. destruct (N _ H).
  - intros k' w' [<-|[]] H. destruct (N _ H).
Qed.
Ltac plain_block := apply one_regular; [simpl; lia|intros u U; inversion U].
Ltac no_step := apply one_regular; [simpl; lia|intros u U; inversion U|intros s []].

(** A step that displays nothing, as steps are when they are made: the workflow is not
    even comparable to itself. *)
Definition new_step := {| st_label := "first"; st_inputs := [named "x"]; st_group := []; st_display := None; st_doc := ""; st_index := None |}.
Theorem C45_step_refuted : exists w, regular w /\ hash w = Err TypeError /\ equal w w = Err TypeError.
Proof. exists (one [named "x"] (KSum 1) [new_step]). split; [plain_block|]. split; reflexivity. Qed.

(** Blocks that instantiate different classes are equivalent, as are filters that combine
    their conditions differently. *)
Theorem C45_class_refuted : exists w w', regular w /\ regular w'
  /\ kinds w = [KInstantiate "Car" "type"] /\ kinds w' = [KInstantiate "Bus" "type"] /\ equal w w' = Ok true.
Proof.
  exists (one [named "x"] (KInstantiate "Car" "type") []), (one [named "x"] (KInstantiate "Bus" "type") []).
  split; [plain_block|]. split; [plain_block|]. split; [reflexivity|]. split; [reflexivity|]. hashes.
Qed.
Theorem C45_operator_refuted : exists w w' l, regular w /\ regular w' /\ 2 <= List.length l
  /\ kinds w = [KFilter l "and"] /\ kinds w' = [KFilter l "or"] /\ equal w w' = Ok true.
Proof.
  pose (l := [{| f_attribute := "mass"; f_comparison := "gt"; f_bound := 1%Z |}; {| f_attribute := "mass"; f_comparison := "lt"; f_bound := 2%Z |}]).
  exists (one [named "x"] (KFilter l "and") []), (one [named "x"] (KFilter l "or") []), l.
  split; [plain_block|]. split; [plain_block|]. split; [simpl; lia|]. split; [reflexivity|]. split; [reflexivity|]. hashes.
Qed.

(** Default values are not compared. *)
Theorem C45_defaults_refuted : exists w w', regular w /\ regular w' /\ map v_default (input_infos w) = [Some 1%Z]
  /\ map v_default (input_infos w') = [Some 2%Z] /\ equal w w' = Ok true.
Proof.
  pose (v x := {| v_name := "x"; v_type := 0; v_locked := true; v_default := Some x |}).
  exists (one [v 1%Z] (KSum 1) []), (one [v 2%Z] (KSum 1) []).
  split; [plain_block|]. split; [plain_block|]. split; [reflexivity|]. split; [reflexivity|]. hashes.
Qed.

(** What one workflow has and the other has not is not compared: here a whole block.  The
    hash does not see it either, since the names of the classes make up for it. *)
Theorem C45_blocks_refuted : exists w w', regular w /\ regular w'
  /\ kinds w = [KInstantiate "Assembly" "type"] /\ kinds w' = [KInstantiate "Part" "type"; KSum 3] /\ equal w w' = Ok true.
Proof.
  exists (one [named "x"] (KInstantiate "Assembly" "type") []),
    (Wf (mkWf [mkBlock [0] [9]; mkBlock [1; 2; 3] [10]] [] (Some 9)) (fun v => named "x") [KInstantiate "Part" "type"; KSum 3] []).
  split; [plain_block|]. split.
  { constructor; auto.
    - constructor; cbn [diagram pipes blocks map].
      + repeat constructor; simpl; intuition discriminate.
      + constructor.
      + intros ? ? [].
      + intros ? ? ? [].
      + intros o H. injection H as <-. eexists. split; [left; reflexivity|left; reflexivity].
    - intros k w' [<-|[<-|[]]] H; inversion H. }
  split; [reflexivity|]. split; [reflexivity|].
  apply weq_true. split; [|repeat split; reflexivity].
  set (a := hash_address (Some (APort 0 true 0))).
  exists ((9 + a) mod 1000000000)%Z.
  assert (H : forall x y, (x = y -> Ok (x mod 1000000000) = Ok (y mod 1000000000))%Z) by (intros; subst; auto).
  split.
  - transitivity (Ok ((1 + a + 8 + 0) mod 1000000000)%Z); [reflexivity|]. apply H. lia.
  - transitivity (Ok ((2 + a + 7 + 0) mod 1000000000)%Z); [reflexivity|]. apply H. lia.
Qed.

(** So equality is not transitive. *)
Theorem C45_transitive_refuted : exists w1 w2 w3, regular w1 /\ regular w2 /\ regular w3
  /\ equal w1 w2 = Ok true /\ equal w2 w3 = Ok true /\ equal w1 w3 = Ok false.
Proof.
  exists (one [named "width"] (KInstantiate "Part" "type") []), (one [] (KInstantiate "Tool" "type") []), (one [named "mass"] (KInstantiate "Gear" "type") []).
  split; [plain_block|]. split; [plain_block|]. split; [plain_block|]. split; [hashes|]. split; [hashes|].
  apply differ; [plain_block|no_step|reflexivity|reflexivity].
Qed.

(** Comparing blocks of different classes may raise, in one order and not in the other. *)
Theorem C45_raises_refuted : exists w w', regular w /\ regular w' /\ equal w w' = Err AttributeError /\ equal w' w = Ok false.
Proof.
  exists (one [named "x"] (KInstantiate "Car" "type") []), (one [named "x"] (KSum 3) []).
  split; [plain_block|]. split; [plain_block|].
  split; (apply differ; [plain_block|no_step|reflexivity|reflexivity]).
Qed.
End Examples.
Print Assumptions C45_step_refuted.
Print Assumptions C45_class_refuted.
Print Assumptions C45_operator_refuted.
Print Assumptions C45_defaults_refuted.
Print Assumptions C45_blocks_refuted.
Print Assumptions C45_transitive_refuted.
Print Assumptions C45_raises_refuted.

(** C70: what generators of models from decision trees give. *)
From Coq Require Import List Bool Arith Lia Sorted.
From Verif Require Import Base TreesModel TreesSpec TreesProofs.
Import ListNotations.

Section C70.
Context {M : Type}.
Variable model_from_vector : list nat -> res M.
Variable is_vector_valid : list nat -> bool.
Variable is_model_valid : M -> bool.
Variable number_possibilities : M -> nat.
Notation gives := (gives model_from_vector is_vector_valid is_model_valid).
Notation open_path := (open_path model_from_vector is_vector_valid is_model_valid number_possibilities).
Notation solution := (solution model_from_vector is_vector_valid is_model_valid number_possibilities).
Notation regular_solution := (regular_solution model_from_vector is_vector_valid is_model_valid).
Notation ok := (ok model_from_vector is_vector_valid is_model_valid).
Notation kids := (kids model_from_vector number_possibilities).
Notation rok := (rok model_from_vector is_vector_valid is_model_valid).
Notation generate := (generate model_from_vector is_vector_valid is_model_valid number_possibilities).
Notation regular_generate := (regular_generate model_from_vector is_vector_valid is_model_valid).

Local Lemma ok_gives v : ok v = true <-> exists m, gives v m.
Proof.
  unfold TreesProofs.ok, TreesSpec.gives. rewrite andb_true_iff. destruct (model_from_vector v) as [m|e]; split.
  - intros [? ?]. exists m. auto.
  - intros (m' & ? & E & ?). injection E as <-. auto.
  - intros [_ ?]. discriminate.
  - intros (m' & ? & ? & ?). discriminate.
Qed.
Local Lemma kids_gives v m : gives v m -> kids v = number_possibilities m.
Proof. intros (_ & E & _). unfold TreesProofs.kids. rewrite E. reflexivity. Qed.
Local Lemma reached_open v : reached ok kids v <-> open_path v.
Proof.
  split; intros H p i s E.
  - destruct (H p i s E) as [O K]. apply ok_gives in O. destruct O as [m G]. exists m. split; [auto|]. rewrite <- (kids_gives p m G). exact K.
  - destruct (H p i s E) as (m & G & K). split; [apply ok_gives; eauto|]. rewrite (kids_gives p m G). exact K.
Qed.
Local Lemma leaf_solution v : leaf ok kids v <-> solution v.
Proof.
  unfold leaf, TreesSpec.solution. rewrite reached_open. split.
  - intros (R & O & K). split; [auto|]. apply ok_gives in O. destruct O as [m G]. exists m. split; [auto|]. rewrite <- (kids_gives v m G). exact K.
  - intros (R & m & G & K). split; [auto|]. split; [apply ok_gives; eauto|]. rewrite (kids_gives v m G). exact K.
Qed.
Local Lemma lex_irrefl a : ~ lex a a.
Proof. intros (p & x & y & r & s & E & F & L). rewrite E in F. apply app_inv_head in F. injection F as -> _. lia. Qed.
Local Lemma sorted_nodup l : StronglySorted lex l -> NoDup l.
Proof.
  induction 1 as [|a l S IH F]; constructor; [|auto]. intros I. apply (lex_irrefl a). apply (proj1 (Forall_forall _ _) F a I).
Qed.

(** A generator yields the models of all solutions, in the order of their vectors, each once: those whose model is valid
    and has no possibilities, below nodes that are all valid.  It ends when no valid node deeper than some depth has
    possibilities, and asks for the models of valid vectors below valid nodes, and of the root, only. *)
Theorem C70_generate D :
  (forall v m, D <= List.length v -> open_path v -> gives v m -> number_possibilities m = 0) ->
  (forall v, open_path v -> is_vector_valid v = true -> exists m, model_from_vector v = Ok m) -> (exists m, model_from_vector [] = Ok m) ->
  exists vs ms n t', StronglySorted lex vs /\ NoDup vs /\ (forall v, In v vs <-> solution v) /\ mapM model_from_vector vs = Ok ms /\
    finished t' = true /\ forall k, n <= k -> generate k new_tree = Ok (ms, t').
Proof.
  intros B DEF R0. destruct (generate_gen model_from_vector is_vector_valid is_model_valid number_possibilities) with (D := D) as (vs & ms & n & t' & [S A] & Em & F & E).
  - intros v R V. apply DEF; [apply reached_open|]; auto.
  - intros v L R O. apply ok_gives in O. destruct O as [m G]. rewrite (kids_gives v m G). apply (B v); auto. apply reached_open. auto.
  - exact R0.
  - exists vs, ms, n, t'. split; [auto|]. split; [apply sorted_nodup; auto|]. split; [intros v; rewrite A; apply leaf_solution|]. split; [auto|]. split; [auto|].
    intros k L. unfold TreesModel.generate in *. destruct (model_from_vector _) as [m|e]; cbn [bind] in *; [|discriminate]. apply (loop_more _ n); auto.
Qed.

Local Lemma regular_reached np v : reached rok (rkids np) v <->
  List.length v <= List.length np /\ Forall2 lt v (firstn (List.length v) np) /\ forall p i s, v = p ++ i :: s -> p <> [] -> exists m, gives p m.
Proof.
  split.
  - intros R. assert (L : List.length v <= List.length np).
    { destruct v as [|x v] using rev_ind; [cbn; lia|]. destruct (R v x [] eq_refl) as [_ K]. unfold rkids in K. rewrite app_length. cbn.
      destruct (Nat.le_gt_cases (List.length np) (List.length v)) as [L|L]; [|lia]. rewrite nth_overflow in K by auto. lia. }
    split; [auto|]. split.
    + induction v as [|x v IH] using rev_ind; [constructor|]. rewrite app_length in *. cbn [List.length] in *. destruct (R v x [] eq_refl) as [_ K]. unfold rkids in K.
      replace (firstn (List.length v + 1) np) with (firstn (List.length v) np ++ [nth (List.length v) np 0]).
      * apply Forall2_app; [|constructor; auto]. apply IH; [|lia]. intros p i s E. apply (R p i (s ++ [x])). rewrite E, <- app_assoc. reflexivity.
      * clear -L. revert L. generalize (List.length v). intros n. revert np. induction n as [|n IH]; intros [|y np] L; cbn in *; try lia; [reflexivity|]. f_equal. apply IH. lia.
    + intros p i s E NE. destruct (R p i s E) as [O _]. destruct p as [|y p]; [congruence|]. apply ok_gives. exact O.
  - intros (L & F & G) p i s E. split.
    + destruct p as [|y p]; [reflexivity|]. apply (ok_gives (y :: p)). apply (G (y :: p) i s E). discriminate.
    + unfold rkids. subst v. rewrite app_length in *. cbn [List.length] in *.
      assert (H : forall n k, k < n -> nth k (firstn n np) 0 = nth k np 0). { intros n. generalize np. induction n as [|n IH]; intros [|y q] [|k] K; cbn; try lia; auto. apply IH. lia. }
      rewrite <- (H (List.length p + S (List.length s)) (List.length p)) by lia. clear H L G. revert F. generalize (firstn (List.length p + S (List.length s)) np). induction p as [|y p IH]; intros q F.
      * inversion F; subst. auto.
      * inversion F; subst. cbn. auto.
Qed.
Local Lemma regular_leaf np v : np <> [] -> Forall (fun n => 0 < n) np -> (leaf rok (rkids np) v <-> regular_solution np v).
Proof.
  intros NE POS. unfold leaf, TreesSpec.regular_solution. rewrite regular_reached, (rkids_zero np POS). split.
  - intros ((L & F & G) & O & L'). assert (EL : List.length v = List.length np) by lia. rewrite firstn_all2 in F by lia. split; [auto|].
    intros p i s E. destruct s as [|j s].
    + rewrite <- E. apply ok_gives. destruct v; [destruct p; discriminate|exact O].
    + apply (G (p ++ [i]) j s); [rewrite E, <- app_assoc; reflexivity|destruct p; discriminate].
  - intros (F & G). assert (EL : List.length v = List.length np) by (clear -F; induction F; cbn; congruence). rewrite firstn_all2 by lia. split; [split; [lia|split; [auto|]]|split; [|lia]].
    + intros p i s E NEp. destruct (exists_last NEp) as (q & j & ->). apply (G q j (i :: s)). rewrite E, <- app_assoc. reflexivity.
    + destruct v as [|x v] using rev_ind; [reflexivity|]. assert (O := G v x [] eq_refl). apply ok_gives in O. unfold TreesProofs.rok. destruct (v ++ [x]); [reflexivity|exact O].
Qed.

(** With fixed numbers of possibilities, none of which is 0, the vectors with one choice at each depth are gone through
    in order, and those below a choice that is not valid are left out.  It always ends; the root is not looked at. *)
Theorem C70_regular np : np <> [] -> Forall (fun n => 0 < n) np -> (forall v, v <> [] -> is_vector_valid v = true -> exists m, model_from_vector v = Ok m) ->
  exists vs ms n t', StronglySorted lex vs /\ NoDup vs /\ (forall v, In v vs <-> regular_solution np v) /\ mapM model_from_vector vs = Ok ms /\
    finished t' = true /\ forall k, n <= k -> regular_generate np k (regular_tree np) = Ok (ms, t').
Proof.
  intros NE POS DEF. destruct (regular_gen model_from_vector is_vector_valid is_model_valid np NE POS) as (vs & ms & n & t' & [S A] & Em & F & E).
  - intros v NV _. apply DEF. auto.
  - exists vs, ms, n, t'. split; [auto|]. split; [apply sorted_nodup; auto|]. split; [intros v; rewrite A; apply regular_leaf; auto|]. split; [auto|]. split; [auto|].
    intros k L. unfold TreesModel.regular_generate in *. apply (loop_more _ n); auto.
Qed.

(** A generator gives its models once: when it was gone through, it gives nothing more. *)
Theorem C70_once t k : finished t = true ->
  (forall m, model_from_vector (node t) = Ok m -> exists t', generate (S k) t = Ok ([], t') /\ finished t' = true) /\
  (forall np, regular_generate np (S k) t = Ok ([], t)).
Proof.
  intros F. split.
  - intros m E. exists (set_possibilities (number_possibilities m) t). unfold TreesModel.generate. rewrite E. cbn [bind loop]. cbn [finished set_possibilities]. rewrite F. auto.
  - intros np. unfold TreesModel.regular_generate. cbn [loop]. rewrite F. reflexivity.
Qed.

(** A generator that was left when it gave a model starts again with this model. *)
Theorem C70_resume t m : finished t = false -> gives (node t) m -> number_possibilities m = 0 ->
  (exists t', turn model_from_vector is_vector_valid is_model_valid number_possibilities t = Ok ([m], t')) /\
  forall k ms t', generate k (set_possibilities 0 t) = Ok (ms, t') -> exists rest, ms = m :: rest.
Proof.
  intros F (V & E & W) Z. assert (T : forall t, gives (node t) m -> exists t', turn model_from_vector is_vector_valid is_model_valid number_possibilities t = Ok ([m], t')).
  { clear t F V E. intros t (V & E & _). unfold turn. rewrite V, E. cbn [bind]. rewrite W, Z. cbn. eauto. }
  split; [apply T; repeat split; auto|]. intros k ms t' G. unfold TreesModel.generate in G. cbn [node set_possibilities] in G. rewrite E in G. cbn [bind] in G. rewrite Z in G.
  destruct k as [|k]; [discriminate|]. cbn [loop] in G. replace (finished (set_possibilities 0 (set_possibilities 0 t))) with false in G by (symmetry; exact F).
  destruct (T (set_possibilities 0 (set_possibilities 0 t))) as [t1 E1]; [repeat split; auto|]. rewrite E1 in G. cbn [bind fst snd app] in G.
  destruct (loop _ k t1) as [[r t2]|e]; cbn [bind fst snd app] in G; [|discriminate]. injection G as <- _. eauto.
Qed.

(** The model of the root is asked for before it is checked: it must exist although no vector is valid. *)
Theorem C70_root e k : model_from_vector [] = Err e -> generate k new_tree = Err e.
Proof. intros E. unfold TreesModel.generate. cbn [node new_tree]. rewrite E. reflexivity. Qed.
End C70.

(** Expected of a generator: it can be gone through again.  It gives nothing the second time. *)
Theorem C70_again_refuted : exists (model : list nat -> res nat) ms t1 t2,
  generate model (fun _ => true) (fun _ => true) (fun m => m) 9 new_tree = Ok (ms, t1) /\ ms <> [] /\
  generate model (fun _ => true) (fun _ => true) (fun m => m) 9 t1 = Ok ([], t2).
Proof. exists (fun v => match v with [] => Ok 2 | _ => Ok 0 end). do 3 eexists. split; [reflexivity|]. split; [discriminate|reflexivity]. Qed.

(** Models are the vectors with a number of possibilities: two choices, then three below the first; [0; 1] is not valid. *)
Definition example_model (v : list nat) : res (list nat * nat) :=
  match v with [] => Ok (v, 2) | [0] => Ok (v, 3) | [0; 2] => Ok (v, 1) | [2] => Err TypeError | _ => Ok (v, 0) end.
Definition example_valid (m : list nat * nat) : bool := match fst m with [0; 1] => false | _ => true end.
Example C70_example :
  (exists t, generate example_model (fun _ => true) example_valid snd 20 new_tree = Ok ([([0; 0], 0); ([0; 2; 0], 0); ([1], 0)], t) /\ node t = [1] /\ finished t = true) /\
  solution example_model (fun _ => true) example_valid snd [0; 2; 0].
Proof.
  split; [eexists; split; [vm_compute; reflexivity|split; reflexivity]|]. split.
  - intros p i s E. destruct p as [|a [|b [|c p]]]; cbn in E; inversion E; subst; try (destruct p; discriminate).
    + exists ([], 2). repeat split; cbn; lia.
    + exists ([0], 3). repeat split; cbn; lia.
    + exists ([0; 2], 1). repeat split; cbn; lia.
  - exists ([0; 2; 0], 0). repeat split.
Qed.
Example C70_regular_example :
  exists t, regular_generate (fun v => Ok v) (fun v => match v with [1] => false | _ => true end) (fun v => match v with [0; 1] => false | _ => true end)
    [3; 2] 20 (regular_tree [3; 2]) = Ok ([[0; 0]; [2; 0]; [2; 1]], t) /\ finished t = true.
Proof. eexists. split; [vm_compute; reflexivity|reflexivity]. Qed.

Print Assumptions C70_generate.
Print Assumptions C70_regular.
Print Assumptions C70_once.
Print Assumptions C70_resume.
Print Assumptions C70_root.
Print Assumptions C70_again_refuted.

(** Proofs about sampling. *)
From Coq Require Import ZArith QArith Lqa Lia Bool String Permutation List.
From Verif Require Import Base BaseProofs BlocksProofs ParamModel ParamProofs SamplingModel.
Import ListNotations.
Open Scope Q_scope.
Local Arguments Qplus : simpl never.
Local Arguments Qminus : simpl never.
Local Arguments Qmult : simpl never.
Local Arguments Qdiv : simpl never.

(** ** Combinations of indices *)

Fixpoint all_choices (ns : list nat) : list (list nat) :=
  match ns with
  | [] => [[]]
  | n :: ns => flat_map (fun row => map (fun k => k :: row) (seq 0 n)) (all_choices ns)
  end.

Lemma all_choices_in ns : forall ks, In ks (all_choices ns) <-> Forall2 lt ks ns.
Proof.
  induction ns as [|n ns IH]; intros ks; simpl.
  - split; [intros [<-|[]]; constructor|]. intros H. inversion H. auto.
  - rewrite in_flat_map. split.
    + intros (row & Hrow & H). apply in_map_iff in H. destruct H as (k & <- & Hk). apply in_seq in Hk.
      constructor; [lia|]. apply IH. auto.
    + intros H. inversion H as [|k ? row ? Hk Hrow]; subst. exists row. split; [apply IH; auto|].
      apply in_map_iff. exists k. split; auto. apply in_seq. lia.
Qed.

Lemma NoDup_append {A} (l m : list A) : NoDup l -> NoDup m -> (forall x, In x l -> ~ In x m) -> NoDup (l ++ m).
Proof.
  induction 1 as [|x l Hx Hl IH]; simpl; intros Hm Hd; auto.
  constructor.
  - rewrite in_app_iff. intros [H|H]; [auto|]. apply (Hd x); simpl; auto.
  - apply IH; auto.
Qed.

Lemma all_choices_nodup ns : NoDup (all_choices ns).
Proof.
  induction ns as [|n ns IH]; simpl; [repeat constructor; auto|].
  induction IH as [|row rows Hrow Hrows IHr]; simpl; [constructor|].
  apply NoDup_append; auto.
  - apply FinFun.Injective_map_NoDup; [|apply seq_NoDup]. intros a b [=]. auto.
  - intros x Hx Hin. apply in_map_iff in Hx. destruct Hx as (k & <- & _).
    apply in_flat_map in Hin. destruct Hin as (row' & Hr & Hin). apply in_map_iff in Hin.
    destruct Hin as (k' & [= <- <-] & _). auto.
Qed.

Lemma all_choices_length ns : List.length (all_choices ns) = fold_right Nat.mul 1%nat ns.
Proof.
  induction ns as [|n ns IH]; simpl; auto. rewrite <- IH. clear IH.
  induction (all_choices ns) as [|row rows IH]; simpl; [lia|].
  rewrite app_length, map_length, seq_length, IH. lia.
Qed.

Lemma choices_length ns rows : NoDup rows -> (forall ks, In ks rows <-> Forall2 lt ks ns) ->
  List.length rows = fold_right Nat.mul 1%nat ns.
Proof.
  intros H1 H2. rewrite <- all_choices_length. apply Permutation_length, NoDup_Permutation; auto.
  - apply all_choices_nodup.
  - intros ks. rewrite H2, all_choices_in. tauto.
Qed.

(** ** Values picked in the grid *)

Lemma pick_values grids : forall row off pre, List.length pre = off ->
  Forall2 (fun i (g : list Q) => (i < List.length g)%nat) row grids ->
  exists values,
    mapM (fun ri => let* r := of_option IndexError (nth_error (pre ++ grids) (fst ri)) in
                    of_option IndexError (nth_error r (snd ri)))
         (combine (seq off (List.length row)) row) = Ok values
    /\ Forall2 (fun ig v => nth_error (snd ig) (fst ig) = Some v) (combine row grids) values.
Proof.
  induction grids as [|g grids IH]; intros row off pre Hoff F; inversion F as [|i ? row' ? Hi F']; subst; simpl.
  - exists []. auto.
  - rewrite nth_error_app2 by lia. rewrite Nat.sub_diag. simpl.
    destruct (nth_error g i) as [v|] eqn:E; [|apply nth_error_None in E; lia]. simpl.
    destruct (IH row' (S (List.length pre)) (pre ++ [g])) as (vs & Hvs & Fvs); auto.
    { rewrite app_length. simpl. lia. }
    rewrite <- app_assoc in Hvs. simpl in Hvs. rewrite Hvs. simpl. exists (v :: vs). split; auto.
Qed.

Lemma dict_set_new d k v : ~ In k (map fst d) -> dict_set d k v = d ++ [(k, v)].
Proof.
  induction d as [|[k' v'] d IH]; simpl; intros H; auto.
  destruct (String.eqb k k') eqn:E; [apply String.eqb_eq in E; subst; tauto|]. rewrite IH by tauto. auto.
Qed.

Lemma dict_zip_combine keys : forall values, NoDup keys -> dict_zip keys values = combine keys values.
Proof.
  intros values H. unfold dict_zip.
  assert (G : forall d, NoDup (map fst d ++ keys) ->
    fold_left (fun d kv => dict_set d (fst kv) (snd kv)) (combine keys values) d = d ++ combine keys values).
  { clear H. revert values. induction keys as [|k keys IH]; intros [|v values] d H; simpl;
      try (rewrite app_nil_r; auto; fail).
    rewrite dict_set_new.
    - rewrite IH.
      + rewrite <- app_assoc. auto.
      + rewrite map_app. simpl. rewrite <- app_assoc. auto.
    - intros C. apply NoDup_remove_2 in H. apply H. apply in_app_iff. auto. }
  rewrite G; auto.
Qed.

Lemma dict_get_combine keys : forall values i k v, NoDup keys -> nth_error keys i = Some k ->
  nth_error values i = Some v -> dict_get (combine keys values) k = Some v.
Proof.
  induction keys as [|k' keys IH]; intros [|v' values] [|i] k v N; simpl; try discriminate;
    inversion N as [|? ? Hn Hd]; subst.
  - intros [= ->] [= ->]. rewrite String.eqb_refl. auto.
  - intros Hk Hv. destruct (String.eqb k k') eqn:E; [|eapply IH; eauto].
    apply String.eqb_eq in E. subst. exfalso. apply Hn. eapply nth_error_In; eauto.
Qed.

(** ** linspace *)

Lemma linspace_length lo hi n : List.length (linspace lo hi n) = n.
Proof. unfold linspace. rewrite map_length, seq_length. auto. Qed.

Lemma linspace_nth lo hi n k v : nth_error (linspace lo hi n) k = Some v ->
  (k < n)%nat
  /\ (n = 1%nat -> v == lo)
  /\ v * inject_Z (Z.of_nat (n - 1)) == lo * inject_Z (Z.of_nat (n - 1 - k)) + hi * inject_Z (Z.of_nat k).
Proof.
  intros H. assert (k < n)%nat as Hk.
  { rewrite <- (linspace_length lo hi n). apply nth_error_Some. congruence. }
  unfold linspace in H. rewrite nth_error_map' in H.
  rewrite (nth_error_nth' _ 0%nat) in H by (rewrite seq_length; lia). rewrite seq_nth in H by lia. simpl in H.
  destruct (Nat.eqb_spec n 1) as [->|Hn].
  - assert (k = 0%nat) as -> by lia. injection H as <-. split; auto. split; [reflexivity|].
    simpl. change (inject_Z 0) with 0. ring.
  - injection H as <-. split; auto. split; [intros; lia|].
    assert (1 <= inject_Z (Z.of_nat (n - 1))) as Hp by (change 1 with (inject_Z 1); rewrite <- Zle_Qle; lia).
    assert (inject_Z (Z.of_nat (n - 1 - k)) == inject_Z (Z.of_nat (n - 1)) - inject_Z (Z.of_nat k)) as ->.
    { rewrite Nat2Z.inj_sub by lia. unfold Z.sub. rewrite inject_Z_plus, inject_Z_opp. ring. }
    field. lra.
Qed.

Section Sampler.
Variable sampled_attributes : list sampled_attribute.
Variable constant_attributes : list fixed_attribute.
Variable fullfact : list nat -> list (list nat).
Hypothesis fullfact_ok : forall levels, levels <> [] ->
  NoDup (fullfact levels) /\ forall row, In row (fullfact levels) <-> Forall2 lt row levels.

Lemma grid_eq : build_parameter_grid sampled_attributes constant_attributes
    (get_instances_numbers sampled_attributes constant_attributes)
  = map (fun f => [fixed_value f]) constant_attributes
    ++ map (fun a => linspace (min_value (bounded a)) (max_value (bounded a)) (number a)) sampled_attributes.
Proof.
  unfold build_parameter_grid, get_instances_numbers. f_equal.
  - replace (List.length constant_attributes)
      with (List.length (map (fun _ : fixed_attribute => 1%nat) constant_attributes)) by apply map_length.
    rewrite firstn_app, Nat.sub_diag, firstn_all. simpl. rewrite app_nil_r.
    induction constant_attributes as [|f l IH]; simpl; auto. f_equal. auto.
  - replace (List.length constant_attributes)
      with (List.length (map (fun _ : fixed_attribute => 1%nat) constant_attributes)) by apply map_length.
    rewrite skipn_app, Nat.sub_diag, skipn_all. simpl.
    induction sampled_attributes as [|f l IH]; simpl; auto. f_equal. auto.
Qed.

Lemma choices_split row : Forall2 lt row (get_instances_numbers sampled_attributes constant_attributes) <->
  exists ks, row = map (fun _ => 0%nat) constant_attributes ++ ks
    /\ Forall2 lt ks (map number sampled_attributes).
Proof.
  unfold get_instances_numbers. split.
  - intros H. apply Forall2_app_inv_r in H. destruct H as (r1 & ks & H1 & H2 & ->).
    exists ks. split; auto. f_equal. clear H2. revert r1 H1.
    induction constant_attributes as [|f l IH]; simpl; intros r1 H1; inversion H1 as [|? ? ? ? Hl H1']; subst; auto.
    f_equal; [lia|auto].
  - intros (ks & -> & H). apply Forall2_app; auto.
    induction constant_attributes as [|f l IH]; simpl; constructor; auto.
Qed.

(** what the row of indices [zeros ++ ks] becomes *)
Definition picked (ks : list nat) (values : list Q) : Prop :=
  List.length values = List.length sampled_attributes /\
  Forall2 (fun ka v => nth_error (linspace (min_value (bounded (snd ka))) (max_value (bounded (snd ka)))
                                           (number (snd ka))) (fst ka) = Some v)
          (combine ks sampled_attributes) values.

Lemma row_values ks : Forall2 lt ks (map number sampled_attributes) ->
  exists values,
    mapM (fun ri => let* r := of_option IndexError (nth_error (build_parameter_grid sampled_attributes constant_attributes
                         (get_instances_numbers sampled_attributes constant_attributes)) (fst ri)) in
                    of_option IndexError (nth_error r (snd ri)))
         (enumerate (map (fun _ => 0%nat) constant_attributes ++ ks))
    = Ok (map fixed_value constant_attributes ++ values)
    /\ picked ks values.
Proof.
  intros F. rewrite grid_eq.
  set (consts := map (fun f => [fixed_value f]) constant_attributes).
  set (grids := map (fun a => linspace (min_value (bounded a)) (max_value (bounded a)) (number a)) sampled_attributes).
  assert (Fg : Forall2 (fun i (g : list Q) => (i < List.length g)%nat) ks grids).
  { unfold grids. clear - F. revert ks F. induction sampled_attributes as [|a l IH]; simpl; intros ks F;
      inversion F as [|? ? ? ? Hl F']; subst; constructor; auto. rewrite linspace_length. auto. }
  assert (Fc : Forall2 (fun i (g : list Q) => (i < List.length g)%nat) (map (fun _ => 0%nat) constant_attributes) consts).
  { unfold consts. clear. induction constant_attributes as [|f l IH]; simpl; constructor; auto. }
  destruct (pick_values (consts ++ grids) (map (fun _ => 0%nat) constant_attributes ++ ks) 0 [] eq_refl)
    as (all & Hall & Fall); [apply Forall2_app; auto|].
  simpl in Hall. unfold enumerate. rewrite Hall.
  assert (Ec : combine (map (fun _ => 0%nat) constant_attributes ++ ks) (consts ++ grids)
    = combine (map (fun _ => 0%nat) constant_attributes) consts ++ combine ks grids).
  { unfold consts. clear. induction constant_attributes as [|f l IH]; simpl; auto. f_equal. auto. }
  rewrite Ec in Fall. apply Forall2_app_inv_l in Fall. destruct Fall as (v1 & values & F1 & F2 & ->).
  assert (v1 = map fixed_value constant_attributes) as ->.
  { clear - F1. unfold consts in F1. revert v1 F1. induction constant_attributes as [|f l IH]; simpl; intros v1 F1;
      inversion F1 as [|? ? ? ? Hh F1']; subst; auto. simpl in Hh. injection Hh as ->. f_equal. auto. }
  exists values. split; auto. unfold picked. split.
  - apply Forall2_len in F2. rewrite combine_length in F2. unfold grids in F2. rewrite map_length in F2.
    apply Forall2_len in F. rewrite map_length in F. lia.
  - unfold grids in F2. clear - F2. revert ks values F2. induction sampled_attributes as [|a l IH]; simpl; intros ks values F2.
    + rewrite combine_nil in *. inversion F2. constructor.
    + destruct ks as [|k ks]; simpl in *; inversion F2 as [|? ? ? ? Hh F2']; subst; constructor; auto.
Qed.

Lemma full_factorial_rows : attributes sampled_attributes constant_attributes <> [] ->
  exists choices, fullfact (get_instances_numbers sampled_attributes constant_attributes)
    = map (fun ks => map (fun _ => 0%nat) constant_attributes ++ ks) choices
  /\ NoDup choices
  /\ forall ks, In ks choices <-> Forall2 lt ks (map number sampled_attributes).
Proof.
  intros Hne.
  assert (Hl : get_instances_numbers sampled_attributes constant_attributes <> []).
  { unfold get_instances_numbers, attributes in *. destruct constant_attributes, sampled_attributes; simpl in *; congruence. }
  destruct (fullfact_ok _ Hl) as [N I].
  set (rows := fullfact _) in *.
  set (z := map (fun _ : fixed_attribute => 0%nat) constant_attributes).
  exists (map (fun row => skipn (List.length z) row) rows).
  assert (E : forall row, In row rows -> z ++ skipn (List.length z) row = row).
  { intros row Hin. apply I, choices_split in Hin. destruct Hin as (ks & -> & _). fold z.
    rewrite skipn_app, skipn_all, Nat.sub_diag. auto. }
  split; [|split].
  - rewrite map_map. rewrite <- (map_id rows) at 1. apply map_ext_in. intros row Hin. symmetry. apply E. auto.
  - clear I. induction N as [|row rows' Hr N IH]; simpl; constructor.
    + intros C. apply in_map_iff in C. destruct C as (row' & Eq & Hin). apply Hr.
      rewrite <- (E row), <- Eq, (E row'); simpl; auto.
    + apply IH. intros r Hin. apply E. simpl; auto.
  - intros ks. rewrite in_map_iff. split.
    + intros (row & <- & Hin). apply I, choices_split in Hin. destruct Hin as (ks & -> & H). fold z.
      rewrite skipn_app, skipn_all, Nat.sub_diag. auto.
    + intros H. exists (z ++ ks). split.
      * rewrite skipn_app, skipn_all, Nat.sub_diag. auto.
      * apply I, choices_split. eauto.
Qed.

Lemma samples_spec : attributes sampled_attributes constant_attributes <> [] ->
  NoDup (attributes sampled_attributes constant_attributes) ->
  exists choices samples, full_factorial_samples sampled_attributes constant_attributes fullfact = Ok samples
  /\ NoDup choices /\ (forall ks, In ks choices <-> Forall2 lt ks (map number sampled_attributes))
  /\ Forall2 (fun ks sample => exists values, picked ks values
       /\ sample = combine (attributes sampled_attributes constant_attributes)
                           (map fixed_value constant_attributes ++ values)) choices samples.
Proof.
  intros Hne Hnd. destruct (full_factorial_rows Hne) as (choices & E & N & I).
  unfold full_factorial_samples. rewrite E. exists choices.
  assert (G : forall cs, (forall ks, In ks cs -> Forall2 lt ks (map number sampled_attributes)) ->
    exists samples, mapM (fun idx_sample =>
          let* valued_sample :=
            mapM (fun ri => let* row := of_option IndexError (nth_error (build_parameter_grid sampled_attributes
                     constant_attributes (get_instances_numbers sampled_attributes constant_attributes)) (fst ri)) in
                            of_option IndexError (nth_error row (snd ri)))
                 (enumerate idx_sample) in
          Ok (dict_zip (attributes sampled_attributes constant_attributes) valued_sample))
       (map (fun ks => map (fun _ => 0%nat) constant_attributes ++ ks) cs) = Ok samples
    /\ Forall2 (fun ks sample => exists values, picked ks values
       /\ sample = combine (attributes sampled_attributes constant_attributes)
                           (map fixed_value constant_attributes ++ values)) cs samples).
  { clear E N I. induction cs as [|ks cs IH]; intros Hcs; simpl.
    - exists []. auto.
    - destruct (row_values ks (Hcs ks (or_introl eq_refl))) as (values & Hv & Hp). rewrite Hv. simpl.
      destruct IH as (samples & Hs & Fs); [intros k Hk; apply Hcs; simpl; auto|]. rewrite Hs. simpl.
      eexists. split; [reflexivity|]. constructor; auto. exists values. split; auto.
      apply dict_zip_combine. auto. }
  destruct (G choices) as (samples & Hs & Fs); [intros ks; apply I|].
  exists samples. auto.
Qed.
End Sampler.

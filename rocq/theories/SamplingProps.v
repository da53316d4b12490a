(** C38: designs of experiments.

    [fullfact levels] is only asked to list each combination of indices once, in any
    order; latin hypercubes to be made of rows of the unit cube; [uniform] to stay
    between its bounds. *)
From Coq Require Import ZArith QArith Lqa Lia Bool String List.
From Verif Require Import Base BaseProofs BlocksProofs ParamModel ParamProofs SamplingModel SamplingProofs.
Import ListNotations.
Open Scope Q_scope.

(** the [k]-th value of an attribute: its lowest one when it has one value, otherwise
    the [k]-th of [number] evenly spaced values from the lowest to the highest *)
Definition value_at (a : sampled_attribute) (k : nat) (v : Q) : Prop :=
  let n := inject_Z (Z.of_nat (number a)) in
  let k' := inject_Z (Z.of_nat k) in
  (number a = 1%nat -> v == min_value (bounded a))
  /\ v * (n - 1) == min_value (bounded a) * (n - 1 - k') + max_value (bounded a) * k'.

Definition in_bounds (a : sampled_attribute) (v : Q) : Prop :=
  min_value (bounded a) <= v <= max_value (bounded a).

(** the arguments of a sample: the constants at their value, the others as [R] says *)
Definition arguments (sampled : list sampled_attribute) (constants : list fixed_attribute)
    (R : nat -> sampled_attribute -> Q -> Prop) (sample : list (string * Q)) : Prop :=
  map fst sample = map fixed_name constants ++ map (fun a => attribute_name (bounded a)) sampled
  /\ (forall f, In f constants -> dict_get sample (fixed_name f) = Some (fixed_value f))
  /\ (forall j a, nth_error sampled j = Some a ->
        exists v, dict_get sample (attribute_name (bounded a)) = Some v /\ R j a v).

Lemma value_at_bounds a k v : (k < number a)%nat -> min_value (bounded a) <= max_value (bounded a) ->
  value_at a k v -> in_bounds a v.
Proof.
  intros Hk Hm [H1 H2]. unfold in_bounds.
  destruct (Nat.eq_dec (number a) 1) as [E|E]; [rewrite (H1 E); lra|].
  set (n := inject_Z (Z.of_nat (number a))) in *. set (k' := inject_Z (Z.of_nat k)) in *.
  assert (2 <= n) by (unfold n; change 2 with (inject_Z 2); rewrite <- Zle_Qle; lia).
  assert (0 <= k') by (unfold k'; change 0 with (inject_Z 0); rewrite <- Zle_Qle; lia).
  assert (k' <= n - 1).
  { unfold n, k'. assert (inject_Z (Z.of_nat k + 1) <= inject_Z (Z.of_nat (number a))) as L by (rewrite <- Zle_Qle; lia).
    rewrite inject_Z_plus in L. change (inject_Z 1) with 1 in L. lra. }
  set (lo := min_value (bounded a)) in *. set (hi := max_value (bounded a)) in *.
  assert (0 <= k' * (hi - lo)) by (apply Qmult_le_0_compat; lra).
  assert (0 <= (n - 1 - k') * (hi - lo)) by (apply Qmult_le_0_compat; lra).
  split.
  - apply Qmult_le_r with (n - 1); lra.
  - apply Qmult_le_r with (n - 1); lra.
Qed.

Section C38.
Variable sampled : list sampled_attribute.
Variable constants : list fixed_attribute.
Variable object : Type.
Variable sampled_class : list (string * Q) -> res object.
Variable fullfact : list nat -> list (list nat).
Variable pydoe_lhs : nat -> nat -> string -> list (list Q).
Variable uniform : nat -> nat -> Q -> Q -> Q.
Let names := map fixed_name constants ++ map (fun a => attribute_name (bounded a)) sampled.

Hypothesis names_ok : NoDup names.

Lemma sample_arguments (R : nat -> sampled_attribute -> Q -> Prop) values : List.length values = List.length sampled ->
  (forall j a v, nth_error sampled j = Some a -> nth_error values j = Some v -> R j a v) ->
  arguments sampled constants R (combine names (map fixed_value constants ++ values)).
Proof.
  intros Hl HR. split; [|split].
  - apply combine_fst. unfold names. rewrite !app_length, !map_length. lia.
  - intros f Hin. apply In_nth_error in Hin. destruct Hin as [i Hi].
    assert (i < List.length constants)%nat by (apply nth_error_Some; congruence).
    apply (dict_get_combine _ _ i); auto.
    + unfold names. rewrite nth_error_app1 by (rewrite map_length; auto). rewrite nth_error_map, Hi. auto.
    + rewrite nth_error_app1 by (rewrite map_length; auto). rewrite nth_error_map, Hi. auto.
  - intros j a Hj. assert (j < List.length sampled)%nat by (apply nth_error_Some; congruence).
    destruct (nth_error values j) as [v|] eqn:Ev; [|apply nth_error_None in Ev; lia].
    exists v. split; [|eapply HR; eauto].
    apply (dict_get_combine _ _ (List.length constants + j)%nat); auto.
    + unfold names. rewrite nth_error_app2 by (rewrite map_length; lia). rewrite map_length.
      replace (List.length constants + j - List.length constants)%nat with j by lia. rewrite nth_error_map, Hj. auto.
    + rewrite nth_error_app2 by (rewrite map_length; lia). rewrite map_length.
      replace (List.length constants + j - List.length constants)%nat with j by lia. auto.
Qed.

Hypothesis fullfact_ok : forall levels, levels <> [] ->
  NoDup (fullfact levels) /\ forall row, In row (fullfact levels) <-> Forall2 lt row levels.

(** Full factorial: one sample for each choice of one value per attribute. *)
Theorem C38_full_factorial : names <> [] ->
  exists choices samples, full_factorial_samples sampled constants fullfact = Ok samples
  /\ NoDup choices
  /\ (forall ks, In ks choices <-> Forall2 (fun k a => k < number a)%nat ks sampled)
  /\ Forall2 (fun ks sample => arguments sampled constants
                (fun j a v => exists k, nth_error ks j = Some k /\ value_at a k v) sample) choices samples
  /\ List.length samples = fold_right Nat.mul 1%nat (map number sampled)
  /\ (forall objects, full_factorial sampled constants object sampled_class fullfact = Ok objects
        <-> Forall2 (fun sample o => sampled_class sample = Ok o) samples objects).
Proof.
  intros Hne. destruct (samples_spec sampled constants fullfact fullfact_ok Hne names_ok)
    as (choices & samples & E & N & I & F).
  exists choices, samples. split; auto. split; auto. split; [|split; [|split]].
  - intros ks. rewrite I. clear. revert ks. induction sampled as [|a l IH]; intros ks; simpl.
    + split; intros H; inversion H; constructor.
    + split; intros H; inversion H; subst; constructor; auto; apply IH; auto.
  - assert (Hin : forall ks, In ks choices -> Forall2 lt ks (map number sampled)) by (intros; apply I; auto).
    clear - F Hin names_ok. induction F as [|ks sample choices samples Hs F IH]; constructor.
    + destruct Hs as (values & [Hl Hp] & ->). apply sample_arguments; auto.
      specialize (Hin ks (or_introl eq_refl)). apply Forall2_len in Hin. rewrite map_length in Hin.
      intros j a v Hj Hv.
      assert (j < List.length sampled)%nat by (apply nth_error_Some; congruence).
      destruct (nth_error ks j) as [k|] eqn:Ek; [|apply nth_error_None in Ek; lia].
      exists k. split; auto.
      assert (Q : nth_error (linspace (min_value (bounded a)) (max_value (bounded a)) (number a)) k = Some v).
      { clear - Hp Hj Hv Ek. revert ks values j Hp Hj Hv Ek.
        induction sampled as [|a' l IH]; intros ks values [|j] Hp Hj Hv Ek; simpl in *; try discriminate;
          destruct ks as [|k' ks]; simpl in *; try discriminate; inversion Hp as [|? ? ? ? Hh Hp']; subst; simpl in *.
        - injection Hj as ->. injection Ek as ->. injection Hv as ->. auto.
        - eapply IH; eauto. }
      apply linspace_nth in Q. destruct Q as (Q1 & Q2 & Q3). split; auto.
      assert (A : inject_Z (Z.of_nat (number a - 1)) == inject_Z (Z.of_nat (number a)) - 1).
      { rewrite Nat2Z.inj_sub by lia. unfold Z.sub. rewrite inject_Z_plus, inject_Z_opp. reflexivity. }
      assert (B : inject_Z (Z.of_nat (number a - 1 - k)) == inject_Z (Z.of_nat (number a)) - 1 - inject_Z (Z.of_nat k)).
      { rewrite <- A, (Nat2Z.inj_sub (number a - 1)) by lia. unfold Z.sub. rewrite inject_Z_plus, inject_Z_opp. reflexivity. }
      rewrite <- B, <- A. auto.
    + apply IH. intros k Hk. apply Hin. simpl; auto.
  - rewrite <- (Forall2_len _ _ _ F). apply choices_length; auto.
  - intros objects. unfold full_factorial. rewrite E. simpl. apply mapM_forall2.
Qed.

(** Every sample is within the bounds. *)
Theorem C38_bounds : names <> [] -> (forall a, In a sampled -> min_value (bounded a) <= max_value (bounded a)) ->
  exists samples, full_factorial_samples sampled constants fullfact = Ok samples
  /\ Forall (arguments sampled constants (fun _ => in_bounds)) samples.
Proof.
  intros Hne Hb. destruct (C38_full_factorial Hne) as (choices & samples & E & _ & I & F & _).
  exists samples. split; auto.
  assert (Hin : forall ks, In ks choices -> Forall2 (fun k a => k < number a)%nat ks sampled) by (intros; apply I; auto).
  clear - F Hin Hb. induction F as [|ks sample choices samples Hs F IH]; constructor.
  - destruct Hs as (A & B & C). split; [auto|split; auto]. intros j a Hj.
    destruct (C j a Hj) as (v & Hv & k & Hk & Hva). exists v. split; auto.
    apply value_at_bounds with k; auto; [|apply Hb; eapply nth_error_In; eauto].
    specialize (Hin ks (or_introl eq_refl)). clear - Hin Hk Hj. revert j Hk Hj.
    induction Hin; intros [|j] Hk Hj; simpl in *; try discriminate; [congruence|eauto].
  - apply IH. intros k Hk. apply Hin. simpl; auto.
Qed.

(** With intervals that are not reduced to a point no two samples are the same. *)
Theorem C38_distinct : names <> [] -> (forall a, In a sampled -> min_value (bounded a) < max_value (bounded a)) ->
  exists samples, full_factorial_samples sampled constants fullfact = Ok samples
  /\ ForallOrdPairs (fun s s' => exists k v v', dict_get s k = Some v /\ dict_get s' k = Some v' /\ ~ v == v') samples.
Proof.
  intros Hne Hb. destruct (C38_full_factorial Hne) as (choices & samples & E & N & I & F & _).
  exists samples. split; auto.
  assert (Hin : forall ks, In ks choices -> Forall2 (fun k a => k < number a)%nat ks sampled) by (intros; apply I; auto).
  clear - F Hin Hb N. induction F as [|ks sample choices samples Hs F IH]; constructor.
  - inversion N as [|? ? Hn N']; subst. apply Forall_forall. intros s' Hs'.
    assert (exists ks', In ks' choices /\ arguments sampled constants
              (fun j a v => exists k, nth_error ks' j = Some k /\ value_at a k v) s') as (ks' & Hks' & A').
    { clear - F Hs'. induction F as [|ks0 s0 cs ss H0 F IH]; [destruct Hs'|].
      destruct Hs' as [<-|Hs']; [exists ks0; simpl; auto|]. destruct (IH Hs') as (ks' & ? & ?). exists ks'. simpl; auto. }
    assert (Hne : ks <> ks') by (intros ->; auto).
    pose proof (Hin ks (or_introl eq_refl)) as L. pose proof (Hin ks' (or_intror Hks')) as L'.
    assert (D : exists j k k' a, nth_error ks j = Some k /\ nth_error ks' j = Some k' /\ nth_error sampled j = Some a
                 /\ k <> k' /\ (k < number a)%nat /\ (k' < number a)%nat).
    { clear - L L' Hne. revert ks' L' Hne. induction L as [|k a ks l Hk L IHL]; intros ks' L' Hne;
        inversion L' as [|k' ? ks1 ? Hk' L1]; subst; [congruence|].
      destruct (Nat.eq_dec k k') as [->|Hkk].
      - destruct (IHL ks1 L1) as (j & x & y & b & H1 & H2 & H3 & H4); [congruence|].
        exists (S j), x, y, b. auto.
      - exists 0%nat, k, k', a. simpl. repeat split; auto. }
    destruct D as (j & k & k' & a & Hk & Hk' & Ha & Hkk & B1 & B2).
    destruct Hs as (_ & _ & C), A' as (_ & _ & C').
    destruct (C j a Ha) as (v & Hv & x & Hx & Hva). destruct (C' j a Ha) as (v' & Hv' & x' & Hx' & Hva').
    rewrite Hk in Hx. injection Hx as <-. rewrite Hk' in Hx'. injection Hx' as <-.
    exists (attribute_name (bounded a)), v, v'. split; auto. split; auto. intros Hvv.
    destruct Hva as [_ Hva], Hva' as [_ Hva']. rewrite Hvv in Hva.
    pose proof (Hb a (nth_error_In _ _ Ha)) as Hlt.
    set (lo := min_value (bounded a)) in *. set (hi := max_value (bounded a)) in *.
    set (q := inject_Z (Z.of_nat k)) in *. set (q' := inject_Z (Z.of_nat k')) in *.
    assert ((q - q') * (hi - lo) == 0) as Z by lra.
    apply Qmult_integral in Z. destruct Z as [Z|Z]; [|lra].
    assert (q == q') as Z' by lra. unfold q, q' in Z'. apply (inject_Z_injective (Z.of_nat k) (Z.of_nat k')) in Z'. lia.
  - inversion N; subst. apply IH; auto. intros k Hk. apply Hin. simpl; auto.
Qed.

(** Latin hypercube and Monte-Carlo samples are within the bounds too. *)
Theorem C38_lhs : forall samples criterion,
  (forall a, In a sampled -> min_value (bounded a) <= max_value (bounded a)) ->
  (forall row, In row (pydoe_lhs (List.length sampled) samples criterion) ->
     List.length row = List.length sampled /\ forall x, In x row -> 0 <= x <= 1) ->
  let result := lhs_samples sampled constants pydoe_lhs samples criterion in
  List.length result = List.length (pydoe_lhs (List.length sampled) samples criterion)
  /\ Forall (arguments sampled constants (fun _ => in_bounds)) result
  /\ (forall objects, lhs sampled constants object sampled_class pydoe_lhs samples criterion = Ok objects
        <-> Forall2 (fun sample o => sampled_class sample = Ok o) result objects).
Proof.
  intros n criterion Hb Hrow result. split; [apply map_length|]. split.
  - apply Forall_forall. intros s Hs. apply in_map_iff in Hs. destruct Hs as (row & <- & Hin).
    destruct (Hrow row Hin) as [Hl Hu]. rewrite dict_zip_combine by exact names_ok.
    apply sample_arguments.
    + rewrite map_length, combine_length. lia.
    + intros j a v Hj Hv. rewrite nth_error_map in Hv.
      assert (exists x, In x row /\ v = dimensionless_to_value (bounded a) x) as (x & Hx & ->).
      { clear - Hj Hv. revert row j Hj Hv. induction sampled as [|a' l IH]; intros [|x row] [|j] Hj Hv; simpl in *; try discriminate.
        - injection Hj as ->. injection Hv as <-. exists x. auto.
        - destruct (IH row j Hj Hv) as (y & Hy & E). exists y. auto. }
      apply Hu in Hx. pose proof (Hb a (nth_error_In _ _ Hj)) as Hm.
      unfold in_bounds, dimensionless_to_value, interval_length.
      assert (0 <= x * (max_value (bounded a) - min_value (bounded a))) by (apply Qmult_le_0_compat; lra).
      assert (0 <= (1 - x) * (max_value (bounded a) - min_value (bounded a))) by (apply Qmult_le_0_compat; lra).
      lra.
  - intros objects. unfold lhs. apply mapM_forall2.
Qed.

Theorem C38_montecarlo : forall samples,
  (forall a, In a sampled -> min_value (bounded a) <= max_value (bounded a)) ->
  (forall i j lo hi, lo <= hi -> lo <= uniform i j lo hi <= hi) ->
  let result := montecarlo_samples sampled constants uniform samples in
  List.length result = samples
  /\ Forall (arguments sampled constants (fun _ => in_bounds)) result
  /\ (forall i sample, nth_error result i = Some sample ->
        arguments sampled constants
          (fun j a v => v = uniform i j (min_value (bounded a)) (max_value (bounded a))) sample)
  /\ (forall objects, montecarlo sampled constants object sampled_class uniform samples = Ok objects
        <-> Forall2 (fun sample o => sampled_class sample = Ok o) result objects).
Proof.
  intros n Hb Hu result.
  assert (forall i sample, nth_error result i = Some sample ->
        arguments sampled constants
          (fun j a v => v = uniform i j (min_value (bounded a)) (max_value (bounded a))) sample) as Hn.
  { intros i sample Hi. unfold result, montecarlo_samples in Hi. rewrite nth_error_map in Hi.
    destruct (nth_error (seq 0 n) i) as [i'|] eqn:Ei; simpl in Hi; [|discriminate].
    assert (i' = i) as ->.
    { assert (i < n)%nat by (rewrite <- (seq_length n 0); apply nth_error_Some; congruence).
      apply (nth_error_nth _ _ 0%nat) in Ei. rewrite seq_nth in Ei; auto. }
    injection Hi as <-. rewrite dict_zip_combine by exact names_ok. apply sample_arguments.
    + unfold enumerate. rewrite map_length, combine_length, seq_length. lia.
    + intros j a v Hj Hv. rewrite nth_error_map in Hv.
      assert (forall o, option_map
         (fun ja => uniform i (fst ja) (min_value (bounded (snd ja))) (max_value (bounded (snd ja))))
         (nth_error (combine (seq o (List.length sampled)) sampled) j) = Some v ->
         v = uniform i (o + j)%nat (min_value (bounded a)) (max_value (bounded a))) as G.
      { clear - Hj. revert j Hj.
        induction sampled as [|a' l IH]; intros [|j] Hj o Hv; simpl in *; try discriminate.
        - injection Hj as ->. injection Hv as <-. rewrite Nat.add_0_r. auto.
        - apply IH in Hv; auto. rewrite Hv, Nat.add_succ_r. auto. }
      apply (G 0%nat). exact Hv. }
  split; [unfold result, montecarlo_samples; rewrite map_length, seq_length; auto|].
  split; [|split; [exact Hn|]].
  - apply Forall_forall. intros s Hs. apply In_nth_error in Hs. destruct Hs as (i & Hi).
    apply Hn in Hi. destruct Hi as (A1 & A2 & A3). split; [auto|split; auto].
    intros j a Hj. destruct (A3 j a Hj) as (v & Hv & ->). eexists. split; [eauto|].
    apply Hu, Hb. eapply nth_error_In; eauto.
  - intros objects. unfold montecarlo. apply mapM_forall2.
Qed.

(** The method is chosen by its name. *)
Theorem C38_methods : forall method samples criterion,
  method <> "fullfact"%string -> method <> "lhs"%string -> method <> "montecarlo"%string ->
  let doe := get_doe sampled constants object sampled_class fullfact pydoe_lhs uniform in
  doe method samples criterion = Err NotImplementedError
  /\ doe "fullfact"%string samples criterion = full_factorial sampled constants object sampled_class fullfact
  /\ doe "lhs"%string samples criterion = lhs sampled constants object sampled_class pydoe_lhs samples criterion
  /\ doe "montecarlo"%string samples criterion = montecarlo sampled constants object sampled_class uniform samples.
Proof.
  intros method samples criterion H1 H2 H3. cbv zeta. unfold get_doe at 1.
  apply String.eqb_neq in H1, H2, H3. rewrite H1, H2, H3. auto.
Qed.
End C38.
Print Assumptions C38_full_factorial.
Print Assumptions C38_bounds.
Print Assumptions C38_distinct.
Print Assumptions C38_lhs.
Print Assumptions C38_montecarlo.
Print Assumptions C38_methods.

(** ** Example: two sampled attributes and a constant, first factor fastest *)

Definition ex_sampled :=
  [{| bounded := {| attribute_name := "p_1"; min_value := 150; max_value := 250 |}; number := 3 |};
   {| bounded := {| attribute_name := "p_2"; min_value := 0; max_value := 1 |}; number := 2 |}].
Definition ex_constants := [{| fixed_name := "p_3"; fixed_value := 42 |}].

Lemma ex_fullfact_ok : forall levels, levels <> [] ->
  NoDup (all_choices levels) /\ forall row, In row (all_choices levels) <-> Forall2 lt row levels.
Proof. intros levels _. split; [apply all_choices_nodup|]. intros row. apply all_choices_in. Qed.

Example C38_example : exists samples,
  full_factorial_samples ex_sampled ex_constants all_choices = Ok samples
  /\ map (map (fun kv => (fst kv, Qred (snd kv)))) samples
     = [[("p_3", 42); ("p_1", 150); ("p_2", 0)]; [("p_3", 42); ("p_1", 200); ("p_2", 0)];
        [("p_3", 42); ("p_1", 250); ("p_2", 0)]; [("p_3", 42); ("p_1", 150); ("p_2", 1)];
        [("p_3", 42); ("p_1", 200); ("p_2", 1)]; [("p_3", 42); ("p_1", 250); ("p_2", 1)]]%string.
Proof. eexists. split; [vm_compute; reflexivity|]. vm_compute. reflexivity. Qed.

Example C38_example_names :
  NoDup (map fixed_name ex_constants ++ map (fun a => attribute_name (bounded a)) ex_sampled).
Proof. simpl. repeat (apply NoDup_cons || apply NoDup_nil); simpl; intuition congruence. Qed.

(** An attribute that is both constant and sampled, or sampled twice, has one argument:
    the last value given.  The samples are then not as many different ones. *)
Theorem C38_names_refuted :
  let a := {| bounded := {| attribute_name := "p"; min_value := 0; max_value := 1 |}; number := 2 |} in
  (exists samples, full_factorial_samples [a] [{| fixed_name := "p"; fixed_value := 42 |}] all_choices = Ok samples
     /\ forall s, In s samples -> dict_get s "p" <> Some 42)
  /\ (exists s samples, full_factorial_samples [a; a] [] all_choices = Ok samples
     /\ nth_error samples 0 = Some s /\ nth_error samples 1 = Some s).
Proof.
  split.
  - eexists. split; [vm_compute; reflexivity|]. intros s [<-|[<-|[]]]; vm_compute; discriminate.
  - eexists. eexists. split; [vm_compute; reflexivity|]. split; reflexivity.
Qed.
Print Assumptions C38_names_refuted.

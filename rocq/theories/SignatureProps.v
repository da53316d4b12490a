(** Default values are attached to the right arguments. *)
From Coq Require Import ZArith String List Bool Lia Arith.
From Verif Require Import Base BaseProofs BlocksProofs SignatureModel.
Import ListNotations.
Open Scope string_scope.
Open Scope list_scope.
Open Scope nat_scope.

Section Facts.
Context {value annotation : Type}.
Notation argspec := (argspec value).

Definition default_list (spec : argspec) : list value :=
  match defaults spec with Some l => l | None => [] end.

(** Signatures Python can have: distinct names, no more defaults than arguments *)
Definition signature (spec : argspec) : Prop :=
  NoDup (args spec) /\ List.length (default_list spec) <= List.length (args spec).

(** Python's rule: aligned to the right, the defaults belong to the last arguments *)
Definition python_default (spec : argspec) (n : string) : option value :=
  get_name n (combine (rev (args spec)) (rev (default_list spec))).

(** * Reading the rule by position *)
Lemma nth_error_rev {A} (l : list A) k : k < List.length l -> nth_error (rev l) k = nth_error l (List.length l - S k).
Proof.
  revert k; induction l as [|x l IH]; intros k Hk; [simpl in Hk; lia|].
  cbn [rev List.length] in *.
  destruct (Nat.eq_dec k (List.length l)) as [->|Hne].
  - rewrite nth_error_app2 by (rewrite rev_length; lia). rewrite rev_length, Nat.sub_diag.
    replace (S (List.length l) - S (List.length l)) with 0 by lia. reflexivity.
  - rewrite nth_error_app1 by (rewrite rev_length; lia). rewrite IH by lia.
    replace (S (List.length l) - S k) with (S (List.length l - S k)) by lia. reflexivity.
Qed.

Lemma get_name_combine {A} (l : list string) (m : list A) k n :
  NoDup l -> nth_error l k = Some n -> get_name n (combine l m) = nth_error m k.
Proof.
  revert m k; induction l as [|x l IH]; intros m k Hnd Hk; [destruct k; discriminate|].
  inversion Hnd as [|x' l' Hx Hl]; subst.
  destruct m as [|y m]; [destruct k; reflexivity|]. cbn [combine get_name].
  destruct k as [|k]; cbn in Hk.
  - injection Hk as ->. rewrite String.eqb_refl. reflexivity.
  - destruct (String.eqb n x) eqn:E.
    + apply String.eqb_eq in E; subst x. exfalso; apply Hx. apply nth_error_In in Hk; exact Hk.
    + cbn [nth_error]. apply IH; auto.
Qed.

Lemma get_name_notin {A} n (d : list (string * A)) : ~ In n (map fst d) -> get_name n d = None.
Proof.
  induction d as [|[j x] d IH]; intros H; [reflexivity|]. cbn in *.
  destruct (String.eqb n j) eqn:E; [apply String.eqb_eq in E; subst; tauto|]. apply IH; tauto.
Qed.

Lemma python_default_pos spec i n :
  signature spec -> nth_error (args spec) i = Some n ->
  python_default spec n =
    if List.length (args spec) - List.length (default_list spec) <=? i
    then nth_error (default_list spec) (i - (List.length (args spec) - List.length (default_list spec)))
    else None.
Proof.
  intros [Hnd Hlen] Hi. unfold python_default.
  assert (Hlt : i < List.length (args spec)) by (apply nth_error_Some; congruence).
  rewrite (get_name_combine _ _ (List.length (args spec) - S i) n).
  - destruct (_ <=? i) eqn:E.
    + apply Nat.leb_le in E. rewrite nth_error_rev by lia. f_equal. lia.
    + apply Nat.leb_gt in E. apply nth_error_None. rewrite rev_length. lia.
  - apply NoDup_rev; exact Hnd.
  - rewrite nth_error_rev by lia.
    replace (List.length (args spec) - S (List.length (args spec) - S i)) with i by lia. exact Hi.
Qed.

Lemma split_argspecs_eq (spec : argspec) :
  split_argspecs _ spec = ((Z.of_nat (List.length (args spec)) - 1)%Z, Z.of_nat (List.length (default_list spec))).
Proof. unfold split_argspecs, default_list. destruct (defaults spec); reflexivity. Qed.

Lemma default_at_nth (spec : argspec) k : k < List.length (default_list spec) ->
  exists v, default_at _ spec (Z.of_nat k) = Ok v /\ nth_error (default_list spec) k = Some v.
Proof.
  unfold default_at, default_list. destruct (defaults spec) as [l|]; intros H; [|simpl in H; lia].
  unfold py_get. rewrite py_index_nonneg by lia. rewrite Nat2Z.id.
  destruct (nth_error l k) as [v|] eqn:E; [|apply nth_error_None in E; lia].
  exists v; auto.
Qed.

(** * Reserved names *)
Lemma reserved_spec names n : reserved names n = true <-> In n names.
Proof.
  unfold reserved. rewrite existsb_exists. split.
  - intros [x [Hx E]]. apply String.eqb_eq in E; subst; exact Hx.
  - intros H; exists n; split; [exact H|apply String.eqb_refl].
Qed.

Definition BLOCK_RESERVED := ["self"; "cls"; "progress_callback"].

(** * Inputs of blocks *)
Definition input_of (spec : argspec) (annotations : list (string * annotation)) (n : string) (i : input value annotation) : Prop :=
  input_name _ _ i = n /\ get_name n annotations = Some (input_type _ _ i) /\ input_default _ _ i = python_default spec n.

Lemma inputs_loop_ok spec annotations : signature spec -> forall names i,
  (forall k, nth_error names k = nth_error (args spec) (i + k)) ->
  (forall n, In n names -> ~ In n BLOCK_RESERVED -> get_name n annotations <> None) ->
  exists l, inputs_loop _ _ spec annotations (Z.of_nat i) names = Ok l /\
            Forall2 (input_of spec annotations) (filter (fun n => negb (reserved BLOCK_RESERVED n)) names) l.
Proof.
  intros Hsig names; induction names as [|n names IH]; intros i Hpos Hann.
  - exists []; split; [reflexivity|constructor].
  - assert (Hnext : forall k, nth_error names k = nth_error (args spec) (S i + k)).
    { intros k. specialize (Hpos (S k)). cbn [nth_error] in Hpos. rewrite Hpos. f_equal; lia. }
    destruct (IH (S i) Hnext) as [l [Hl HF]]; [intros; apply Hann; [right|]; assumption|].
    rewrite Nat2Z.inj_succ in Hl. unfold Z.succ in Hl.
    cbn [inputs_loop]. rewrite split_argspecs_eq. fold BLOCK_RESERVED.
    cbn [filter]. destruct (reserved BLOCK_RESERVED n) eqn:R; cbn [negb].
    + exists l; split; assumption.
    + assert (Hn : get_name n annotations <> None).
      { apply Hann; [left; reflexivity|]. rewrite <- reserved_spec, R. discriminate. }
      destruct (get_name n annotations) as [ty|] eqn:Ety; [|congruence]. cbn [of_option bind].
      assert (Hi : nth_error (args spec) i = Some n).
      { specialize (Hpos 0). rewrite Nat.add_0_r in Hpos. rewrite <- Hpos. reflexivity. }
      assert (Hlt : i < List.length (args spec)) by (apply nth_error_Some; congruence).
      pose proof (python_default_pos spec i n Hsig Hi) as Hd. destruct Hsig as [Hnd Hlen].
      destruct (_ <=? i) eqn:E in Hd.
      * apply Nat.leb_le in E.
        replace (_ <? _)%Z with true by (symmetry; apply Z.ltb_lt; lia).
        destruct (default_at_nth spec (i - (List.length (args spec) - List.length (default_list spec)))) as [v [Hv Hnth]]; [lia|].
        replace (Z.of_nat (List.length (default_list spec)) - (Z.of_nat (List.length (args spec)) - 1) + Z.of_nat i - 1)%Z
          with (Z.of_nat (i - (List.length (args spec) - List.length (default_list spec)))) by lia.
        rewrite Hv; cbn [bind]. rewrite Hl; cbn [bind]. eexists; split; [reflexivity|].
        constructor; [|exact HF]. repeat split; cbn; [exact Ety|congruence].
      * apply Nat.leb_gt in E.
        replace (_ <? _)%Z with false by (symmetry; apply Z.ltb_ge; lia).
        cbn [bind]. rewrite Hl; cbn [bind]. eexists; split; [reflexivity|].
        constructor; [|exact HF]. repeat split; cbn; [exact Ety|congruence].
Qed.

Lemma inputs_loop_err spec (annotations : list (string * annotation)) : signature spec -> forall names i n,
  (forall k, nth_error names k = nth_error (args spec) (i + k)) ->
  In n names -> ~ In n BLOCK_RESERVED -> get_name n annotations = None ->
  inputs_loop _ _ spec annotations (Z.of_nat i) names = Err WorkflowError.
Proof.
  intros Hsig names; induction names as [|m names IH]; intros i n Hpos Hin Hres Hann; [destruct Hin|].
  assert (Hnext : forall k, nth_error names k = nth_error (args spec) (S i + k)).
  { intros k. specialize (Hpos (S k)). cbn [nth_error] in Hpos. rewrite Hpos. f_equal; lia. }
  cbn [inputs_loop]. rewrite split_argspecs_eq. fold BLOCK_RESERVED.
  destruct (reserved BLOCK_RESERVED m) eqn:R.
  - assert (m <> n) by (intros ->; apply Hres, reserved_spec, R).
    destruct Hin as [->|Hin]; [congruence|].
    specialize (IH (S i) n Hnext Hin Hres Hann). rewrite Nat2Z.inj_succ in IH. exact IH.
  - destruct (get_name m annotations) as [ty|] eqn:Ety; [|reflexivity]. cbn [of_option bind].
    destruct Hin as [->|Hin]; [congruence|].
    specialize (IH (S i) n Hnext Hin Hres Hann). rewrite Nat2Z.inj_succ in IH. unfold Z.succ in IH.
    assert (Hi : nth_error (args spec) i = Some m).
    { specialize (Hpos 0). rewrite Nat.add_0_r in Hpos. rewrite <- Hpos. reflexivity. }
    assert (Hlt : i < List.length (args spec)) by (apply nth_error_Some; congruence).
    destruct Hsig as [Hnd Hlen].
    destruct (_ <? _)%Z eqn:E.
    + apply Z.ltb_lt in E.
      destruct (default_at_nth spec (i - (List.length (args spec) - List.length (default_list spec)))) as [v [Hv Hnth]]; [lia|].
      replace (Z.of_nat (List.length (default_list spec)) - (Z.of_nat (List.length (args spec)) - 1) + Z.of_nat i - 1)%Z
        with (Z.of_nat (i - (List.length (args spec) - List.length (default_list spec)))) by lia.
      rewrite Hv; cbn [bind]. rewrite IH; reflexivity.
    + cbn [bind]. rewrite IH; reflexivity.
Qed.

(** * Splitting *)
Lemma get_set n m (v : value) d : get_name n (set_name _ m v d) = if String.eqb n m then Some v else get_name n d.
Proof.
  induction d as [|[j x] d IH]; cbn [set_name get_name]; [reflexivity|].
  destruct (String.eqb m j) eqn:E; cbn [get_name].
  - apply String.eqb_eq in E; subst j. destruct (String.eqb n m); reflexivity.
  - destruct (String.eqb n j) eqn:E2; [|exact IH].
    apply String.eqb_eq in E2; subst j. rewrite String.eqb_sym, E. reflexivity.
Qed.

Definition kept (names : list string) := filter (fun n => negb (reserved RESERVED_ARGNAMES n)) names.

Lemma kept_spec n names : In n (kept names) <-> In n names /\ ~ In n RESERVED_ARGNAMES.
Proof.
  unfold kept. rewrite filter_In, <- (reserved_spec RESERVED_ARGNAMES). destruct (reserved RESERVED_ARGNAMES n); cbn [negb]; intuition congruence.
Qed.

(** arguments without default, as split gives them *)
Definition required (spec : argspec) (names : list string) : list (argument value) :=
  flat_map (fun n => match python_default spec n with None => [Name _ n] | Some _ => [] end) (kept names).
Definition merged (spec : argspec) (names : list string) : list (argument value) :=
  map (fun n => match python_default spec n with None => Name _ n | Some v => Pair _ n v end) (kept names).

Lemma split_loop_spec spec merge : signature spec -> forall names i arguments dict,
  NoDup names ->
  (forall k, nth_error names k = nth_error (args spec) (S i + k)) ->
  exists arguments' dict', split_loop _ spec merge (Z.of_nat i) names arguments dict = Ok (arguments', dict') /\
    arguments' = arguments ++ (if merge then merged spec names else required spec names) /\
    forall n, get_name n dict' =
      if negb merge && existsb (String.eqb n) (kept names) then
        match python_default spec n with Some v => Some v | None => get_name n dict end
      else get_name n dict.
Proof.
  intros Hsig names; induction names as [|m names IH]; intros i arguments dict Hnd Hpos.
  - exists arguments, dict. split; [reflexivity|]. split.
    + destruct merge; symmetry; apply app_nil_r.
    + intros n. cbn. rewrite andb_false_r. reflexivity.
  - inversion Hnd as [|m' names' Hm Hnd']; subst.
    assert (Hnext : forall k, nth_error names k = nth_error (args spec) (S (S i) + k)).
    { intros k. specialize (Hpos (S k)). cbn [nth_error] in Hpos. rewrite Hpos. f_equal; lia. }
    assert (Hi : nth_error (args spec) (S i) = Some m).
    { specialize (Hpos 0). rewrite Nat.add_0_r in Hpos. rewrite <- Hpos. reflexivity. }
    assert (Hlt : S i < List.length (args spec)) by (apply nth_error_Some; congruence).
    specialize (fun a d => IH (S i) a d Hnd' Hnext). rewrite Nat2Z.inj_succ in IH. unfold Z.succ in IH.
    cbn [split_loop]. rewrite split_argspecs_eq.
    destruct (reserved RESERVED_ARGNAMES m) eqn:R.
    + assert (Hk : kept (m :: names) = kept names) by (unfold kept; cbn [filter]; rewrite R; reflexivity).
      unfold required, merged; rewrite Hk. apply IH.
    + assert (Hk : kept (m :: names) = m :: kept names) by (unfold kept; cbn [filter]; rewrite R; reflexivity).
      unfold required, merged; rewrite Hk. cbn [flat_map map existsb].
      pose proof (python_default_pos spec (S i) m Hsig Hi) as Hd. destruct Hsig as [Hnd0 Hlen].
      destruct (_ <=? S i) eqn:E in Hd.
      * apply Nat.leb_le in E.
        replace (_ <=? _)%Z with true by (symmetry; apply Z.leb_le; lia).
        destruct (default_at_nth spec (S i - (List.length (args spec) - List.length (default_list spec)))) as [v [Hv Hnth]]; [lia|].
        replace (Z.of_nat (List.length (default_list spec)) - (Z.of_nat (List.length (args spec)) - 1) + Z.of_nat i)%Z
          with (Z.of_nat (S i - (List.length (args spec) - List.length (default_list spec)))) by lia.
        rewrite Hv; cbn [bind]. rewrite Hd, Hnth. destruct merge.
        -- destruct (IH (arguments ++ [Pair _ m v]) dict) as (a' & d' & H1 & H2 & H3).
           exists a', d'. split; [exact H1|]. split; [rewrite H2, <- app_assoc; reflexivity|]. exact H3.
        -- destruct (IH arguments (set_name _ m v dict)) as (a' & d' & H1 & H2 & H3).
           exists a', d'. split; [exact H1|]. split; [exact H2|]. intros n. rewrite H3, get_set. cbn [negb andb].
           destruct (String.eqb n m) eqn:En; cbn [orb].
           ++ apply String.eqb_eq in En; subst n. rewrite Hd, Hnth.
              destruct (existsb (String.eqb m) (kept names)); reflexivity.
           ++ reflexivity.
      * apply Nat.leb_gt in E.
        replace (_ <=? _)%Z with false by (symmetry; apply Z.leb_gt; lia).
        rewrite Hd. destruct merge.
        -- destruct (IH (arguments ++ [Name _ m]) dict) as (a' & d' & H1 & H2 & H3).
           exists a', d'. split; [exact H1|]. split; [rewrite H2, <- app_assoc; reflexivity|]. exact H3.
        -- destruct (IH (arguments ++ [Name _ m]) dict) as (a' & d' & H1 & H2 & H3).
           exists a', d'. split; [exact H1|]. split; [rewrite H2, <- app_assoc; reflexivity|]. intros n. rewrite H3. cbn [negb andb].
           destruct (String.eqb n m) eqn:En; cbn [orb]; [|reflexivity].
           apply String.eqb_eq in En; subst n. rewrite Hd. destruct (existsb (String.eqb m) (kept names)); reflexivity.
Qed.

Lemma split_default_args_spec spec merge : signature spec ->
  exists dict, split_default_args _ spec merge =
      Ok (if merge then merged spec (tl (args spec)) else required spec (tl (args spec)), dict) /\
    forall n, get_name n dict = if merge then None
      else if existsb (String.eqb n) (kept (tl (args spec))) then python_default spec n else None.
Proof.
  intros Hsig. destruct (args spec) as [|a l] eqn:Ea.
  - unfold split_default_args. rewrite Ea. exists []. split; [destruct merge; reflexivity|]. intros n; destruct merge; reflexivity.
  - destruct (split_loop_spec spec merge Hsig l 0 [] []) as (a' & d' & H1 & H2 & H3).
    + destruct Hsig as [Hnd _]. rewrite Ea in Hnd. inversion Hnd; assumption.
    + intros k. rewrite Ea. reflexivity.
    + exists d'. unfold split_default_args. rewrite Ea; cbn [tl]. change 0%Z with (Z.of_nat 0). rewrite H1. subst a'. split; [destruct merge; reflexivity|].
      intros n. rewrite H3. destruct merge; cbn [negb andb]; [reflexivity|].
      destruct (existsb (String.eqb n) (kept l)); [|reflexivity]. destruct (python_default spec n); reflexivity.
Qed.
End Facts.

Lemma existsb_in n l : existsb (String.eqb n) l = true <-> In n l.
Proof.
  rewrite existsb_exists. split; [intros [x [H E]]; apply String.eqb_eq in E; subst; exact H|].
  intros H; exists n; split; [exact H|apply String.eqb_refl].
Qed.

(** * C16 *)

(** The inputs of a block: one for each argument but self, cls and progress_callback, in order,
    with the default Python gives it.  They exist as soon as these arguments are annotated. *)
Theorem C16_inputs : forall (value annotation : Type) (spec : argspec value) (annotations : list (string * annotation)),
  signature spec ->
  (forall n, In n (args spec) -> ~ In n ["self"; "cls"; "progress_callback"] -> get_name n annotations <> None) ->
  exists inputs, method_inputs _ _ spec annotations = Ok inputs /\
    map (input_name _ _) inputs = filter (fun n => negb (reserved ["self"; "cls"; "progress_callback"] n)) (args spec) /\
    forall i, In i inputs ->
      get_name (input_name _ _ i) annotations = Some (input_type _ _ i) /\
      input_default _ _ i = python_default spec (input_name _ _ i).
Proof.
  intros value annotation spec annotations Hsig Hann.
  destruct (inputs_loop_ok spec annotations Hsig (args spec) 0) as [l [Hl HF]]; [reflexivity|exact Hann|].
  exists l; split; [exact Hl|]. split.
  - fold BLOCK_RESERVED. clear Hl. induction HF as [|n i ns is [H1 _] HF IH]; [reflexivity|]. cbn; congruence.
  - intros i Hi. clear Hl. induction HF as [|n i' ns is [H1 [H2 H3]] HF IH]; [destruct Hi|].
    destruct Hi as [->|Hi]; [subst n; auto|auto].
Qed.

(** A missing annotation is an error *)
Theorem C16_untyped : forall (value annotation : Type) (spec : argspec value) (annotations : list (string * annotation)) n,
  signature spec -> In n (args spec) -> ~ In n ["self"; "cls"; "progress_callback"] -> get_name n annotations = None ->
  method_inputs _ _ spec annotations = Err WorkflowError.
Proof.
  intros value annotation spec annotations n Hsig Hin Hres Hann.
  apply (inputs_loop_err spec annotations Hsig (args spec) 0 n); auto.
Qed.

(** The default arguments of a schema: each argument after the first has the default Python
    gives it, and the first one none. *)
Theorem C16_default_arguments : forall (value : Type) (spec : argspec value),
  signature spec ->
  exists arguments default_arguments, split_default_args _ spec false = Ok (arguments, default_arguments) /\
    (forall n v, get_name n default_arguments = Some v <->
       In n (tl (args spec)) /\ ~ In n ["self"; "cls"; "progress_callback"; "return"] /\ python_default spec n = Some v) /\
    (forall n, In (Name _ n) arguments <->
       In n (tl (args spec)) /\ ~ In n ["self"; "cls"; "progress_callback"; "return"] /\ python_default spec n = None).
Proof.
  intros value spec Hsig. destruct (split_default_args_spec spec false Hsig) as [d [H1 H2]].
  eexists; exists d; split; [exact H1|]. split.
  - intros n v. rewrite H2. destruct (existsb _ _) eqn:E.
    + apply existsb_in, kept_spec in E. intuition.
    + split; [discriminate|]. intros [Ha [Hb _]].
      assert (In n (kept (tl (args spec)))) as Hk by (apply kept_spec; auto).
      apply existsb_in in Hk. congruence.
  - intros n. unfold required. rewrite in_flat_map. split.
    + intros [m [Hm Hn]]. apply kept_spec in Hm. destruct (python_default spec m) eqn:E; [destruct Hn|].
      destruct Hn as [Hn|[]]. injection Hn as ->. intuition.
    + intros [Ha [Hb Hc]]. exists n. split; [apply kept_spec; auto|]. rewrite Hc. left; reflexivity.
Qed.

(** Merged, the arguments keep their order, each with its default if it has one *)
Theorem C16_merged : forall (value : Type) (spec : argspec value),
  signature spec ->
  exists arguments dict, split_default_args _ spec true = Ok (arguments, dict) /\
    (forall n, get_name n dict = None) /\
    arguments = map (fun n => match python_default spec n with None => Name _ n | Some v => Pair _ n v end)
                    (filter (fun n => negb (reserved ["self"; "cls"; "progress_callback"; "return"] n)) (tl (args spec))).
Proof.
  intros value spec Hsig. destruct (split_default_args_spec spec true Hsig) as [d [H1 H2]].
  eexists; exists d; split; [exact H1|]. split; [exact H2|reflexivity].
Qed.

(** Attributes of the schema of a method, whose first argument is self or cls: all of them,
    each with Python's default *)
Theorem C16_method_schema : forall (value annotation : Type) (spec : argspec value) (annotations : list (string * annotation)) first rest,
  signature spec -> args spec = first :: rest -> In first ["self"; "cls"] ->
  (forall n, In n (args spec) -> ~ In n ["self"; "cls"; "progress_callback"; "return"] -> get_name n annotations <> None) ->
  schema_attributes _ _ spec annotations =
    Ok (map (fun n => (n, python_default spec n)) (filter (fun n => negb (reserved ["self"; "cls"; "progress_callback"; "return"] n)) (args spec))).
Proof.
  intros value annotation spec annotations first rest Hsig Ha Hf Hann.
  destruct (split_default_args_spec spec false Hsig) as [d [H1 H2]].
  change ["self"; "cls"; "progress_callback"; "return"] with RESERVED_ARGNAMES in *. unfold schema_attributes. rewrite H1. cbn [bind snd]. fold (kept (args spec)).
  assert (Hk : kept (args spec) = kept (tl (args spec))).
  { rewrite Ha. unfold kept. cbn [filter tl]. replace (reserved RESERVED_ARGNAMES first) with true; [reflexivity|].
    symmetry; apply reserved_spec. unfold RESERVED_ARGNAMES. destruct Hf as [<-|[<-|[]]]; cbn; auto. }
  assert (Hin : forall n, In n (kept (args spec)) -> In n (kept (tl (args spec)))) by (rewrite Hk; auto).
  assert (Hin2 : forall n, In n (kept (args spec)) -> get_name n annotations <> None).
  { intros n Hn; apply kept_spec in Hn; apply Hann; tauto. }
  clear Hk. induction (kept (args spec)) as [|n l IH]; [reflexivity|].
  cbn [mapM map]. destruct (get_name n annotations) eqn:E; [|exfalso; apply (Hin2 n); [left; reflexivity|exact E]].
  cbn [bind]. rewrite IH by (intros; auto with datatypes). cbn [bind]. do 3 f_equal.
  rewrite H2. replace (existsb _ _) with true; [reflexivity|]. symmetry; apply existsb_in, Hin. left; reflexivity.
Qed.

(** Static functions: the first argument is an attribute too, always without default *)
Theorem C16_static_first : forall (value annotation : Type) (spec : argspec value) (annotations : list (string * annotation)) first rest,
  signature spec -> args spec = first :: rest -> ~ In first ["self"; "cls"; "progress_callback"; "return"] ->
  (forall n, In n (args spec) -> ~ In n ["self"; "cls"; "progress_callback"; "return"] -> get_name n annotations <> None) ->
  schema_attributes _ _ spec annotations =
    Ok ((first, None) :: map (fun n => (n, python_default spec n)) (filter (fun n => negb (reserved ["self"; "cls"; "progress_callback"; "return"] n)) rest)).
Proof.
  intros value annotation spec annotations first rest Hsig Ha Hf Hann.
  destruct (split_default_args_spec spec false Hsig) as [d [H1 H2]].
  change ["self"; "cls"; "progress_callback"; "return"] with RESERVED_ARGNAMES in *. unfold schema_attributes. rewrite H1. cbn [bind snd]. fold (kept (args spec)). fold (kept rest).
  assert (Hk : kept (args spec) = first :: kept rest).
  { rewrite Ha. unfold kept. cbn [filter]. replace (reserved RESERVED_ARGNAMES first) with false; [reflexivity|].
    symmetry. destruct (reserved RESERVED_ARGNAMES first) eqn:E; [|reflexivity]. apply reserved_spec in E. contradiction. }
  assert (Hin2 : forall n, In n (kept (args spec)) -> get_name n annotations <> None).
  { intros n Hn; apply kept_spec in Hn; apply Hann; tauto. }
  rewrite Hk in *. cbn [mapM].
  destruct (get_name first annotations) eqn:E; [|exfalso; apply (Hin2 first); [left; reflexivity|exact E]].
  cbn [bind]. rewrite Ha in H2; cbn [tl] in H2.
  assert (Hfirst : get_name first d = None).
  { rewrite H2. destruct (existsb _ _) eqn:E2; [|reflexivity]. apply existsb_in, kept_spec in E2.
    destruct Hsig as [Hnd _]. rewrite Ha in Hnd. inversion Hnd; tauto. }
  rewrite Hfirst.
  assert (Hrest : forall l, incl l (kept rest) ->
     mapM (fun n => match get_name n annotations with
                    | Some _ => Ok (n, get_name n d) | None => Err ValueError end) l
     = Ok (map (fun n => (n, python_default spec n)) l)).
  { intros l; induction l as [|n l IH]; intros Hl; [reflexivity|]. cbn [mapM map].
    assert (Hn : In n (kept rest)) by (apply Hl; left; reflexivity).
    destruct (get_name n annotations) eqn:E3; [|exfalso; apply (Hin2 n); [right; exact Hn|exact E3]].
    cbn [bind]. rewrite IH by (intros x Hx; apply Hl; right; exact Hx). cbn [bind]. do 3 f_equal.
    rewrite H2. apply existsb_in in Hn. rewrite Hn. reflexivity. }
  rewrite Hrest by (intros x Hx; exact Hx). reflexivity.
Qed.

(** So the default of the first argument is forgotten: the schema and the block disagree *)
Theorem C16_static_default_refuted : exists (spec : argspec nat) (annotations : list (string * nat)),
  signature spec /\
  schema_attributes _ _ spec annotations = Ok [("x", None); ("y", Some 2)] /\
  (let* inputs := method_inputs _ _ spec annotations in Ok (map (fun i => (input_name _ _ i, input_default _ _ i)) inputs))
    = Ok [("x", Some 1); ("y", Some 2)].
Proof.
  exists {| args := ["x"; "y"]; defaults := Some [1; 2] |}, [("x", 0); ("y", 0)].
  split; [|split; reflexivity]. split; cbn; [|lia].
  constructor; [cbn; intuition discriminate|]. constructor; [cbn; tauto|constructor].
Qed.

(** An attribute without annotation is an error *)
Theorem C16_schema_untyped : forall (value annotation : Type) (spec : argspec value) (annotations : list (string * annotation)) n,
  signature spec -> In n (args spec) -> ~ In n ["self"; "cls"; "progress_callback"; "return"] -> get_name n annotations = None ->
  schema_attributes _ _ spec annotations = Err ValueError.
Proof.
  intros value annotation spec annotations n Hsig Hin Hres Hann.
  destruct (split_default_args_spec spec false Hsig) as [d [H1 H2]].
  change ["self"; "cls"; "progress_callback"; "return"] with RESERVED_ARGNAMES in *. unfold schema_attributes. rewrite H1. cbn [bind snd]. fold (kept (args spec)).
  assert (Hk : In n (kept (args spec))) by (apply kept_spec; auto).
  induction (kept (args spec)) as [|m l IH]; [destruct Hk|]. cbn [mapM].
  destruct (get_name m annotations) eqn:E; [|reflexivity]. cbn [bind].
  destruct Hk as [->|Hk]; [congruence|]. rewrite IH by exact Hk. reflexivity.
Qed.

Print Assumptions C16_inputs.
Print Assumptions C16_untyped.
Print Assumptions C16_default_arguments.
Print Assumptions C16_merged.
Print Assumptions C16_method_schema.
Print Assumptions C16_static_first.
Print Assumptions C16_static_default_refuted.
Print Assumptions C16_schema_untyped.

(** def method(self, a, progress_callback, b=1, c=2) *)
Definition example_spec : argspec nat :=
  {| args := ["self"; "a"; "progress_callback"; "b"; "c"]; defaults := Some [1; 2] |}.
Example example_inputs :
  (let* inputs := method_inputs _ _ example_spec [("a", tt); ("b", tt); ("c", tt)] in
   Ok (map (fun i => (input_name _ _ i, input_default _ _ i)) inputs)) = Ok [("a", None); ("b", Some 1); ("c", Some 2)].
Proof. reflexivity. Qed.
Example example_split : split_default_args _ example_spec false = Ok ([Name _ "a"], [("b", 1); ("c", 2)]).
Proof. reflexivity. Qed.
Example example_merged : split_default_args _ example_spec true = Ok ([Name _ "a"; Pair _ "b" 1; Pair _ "c" 2], []).
Proof. reflexivity. Qed.

(** Properties of the scripts of runs (workflow/core.py:2205-2258, workflow/utils.py:81-121). *)
From Coq Require Import ZArith Bool String Ascii Arith Lia List.
From Verif Require Import Base BaseProofs ExecModel ExecSpec ExecStruct ExecProofs ExecRun WiringModel WiringSpec WiringProofs VariablesModel
  ScriptModel ScriptSpec ScriptProofs ScriptExec ScriptGen ScriptProps RunScriptModel RunScriptText RunScriptSpec RunScriptProofs.
Import ListNotations.
Open Scope string_scope.
Open Scope list_scope.

(** ** Imports of types *)
Section AnnInd.
Variable P : ann -> Prop.
Hypothesis H1 : P AUntyped.
Hypothesis H2 : P ABuiltin.
Hypothesis H3 : forall c, P (AClass c).
Hypothesis H4 : forall n l, Forall P l -> P (AAlias n l).
Hypothesis H5 : P AOther.
Fixpoint ann_ind' (a : ann) : P a :=
  match a with
  | AUntyped => H1 | ABuiltin => H2 | AClass c => H3 c
  | AAlias n l => H4 n l ((fix go l : Forall P l := match l with [] => Forall_nil _ | x :: l' => Forall_cons x (ann_ind' x) (go l') end) l)
  | AOther => H5
  end.
End AnnInd.

Lemma imports_ok a : has_schema a -> exists l, update_imports a = Ok l /\ (In None l <-> untyped a).
Proof.
  induction a as [| |c|n l IH|] using ann_ind'; intros S.
  - exists [None]. split; auto. split; [intros _; constructor|simpl; auto].
  - exists []. split; auto. split; [intros []|intros U; inversion U].
  - exists [Some c]. split; auto. split; [intros [E|[]]; discriminate|intros U; inversion U].
  - inversion S as [| | |n' l' Sl]; subst. cbn [update_imports].
    assert (G : exists r, (fix go l := match l with [] => Ok [] | x :: l' => let* a := update_imports x in let* r := go l' in Ok (a ++ r) end) l = Ok r
       /\ (In None r <-> exists a, In a l /\ untyped a)).
    { clear S. induction IH as [|x l Hx IH IHl].
      - exists []. split; auto. split; [intros []|intros [a [[] _]]].
      - destruct (Hx (Sl x (or_introl eq_refl))) as [lx [Ex Ux]]. destruct (IHl (fun a I => Sl a (or_intror I))) as [r [Er Ur]].
        rewrite Ex. cbn [bind]. rewrite Er. cbn [bind]. exists (lx ++ r). split; auto. rewrite in_app_iff, Ux, Ur. split.
        + intros [U|[a [I U]]]; [exists x|exists a]; simpl; auto.
        + intros [a [[<-|I] U]]; eauto. }
    destruct G as [r [Er Ur]]. rewrite Er. cbn [bind]. eexists. split; [reflexivity|]. cbn [In]. rewrite Ur. split.
    + intros [E|[a [I U]]]; [discriminate|econstructor; eauto].
    + intros U. inversion U; subst. right. eauto.
  - inversion S.
Qed.

Lemma mapM_imports (t : nat -> ann) {X} (g : X -> nat) l : (forall x, In x l -> has_schema (t (g x))) -> exists ls, mapM (fun x => update_imports (t (g x))) l = Ok ls
  /\ (In None (concat ls) <-> exists x, In x l /\ untyped (t (g x))).
Proof.
  induction l as [|x l IH]; intros S.
  - exists []. split; auto. split; [intros []|intros [x [[] _]]].
  - destruct (imports_ok _ (S x (or_introl eq_refl))) as [lx [Ex Ux]]. destruct (IH (fun y I => S y (or_intror I))) as [ls [El Ul]].
    cbn [mapM]. rewrite Ex. cbn [bind]. rewrite El. cbn [bind]. eexists. split; [reflexivity|]. cbn [concat]. rewrite in_app_iff, Ux, Ul. split.
    + intros [U|[y [I U]]]; [exists x|exists y]; simpl; auto.
    + intros [y [[<-|I] U]]; eauto.
Qed.

Lemma imports_need a : forall l, update_imports a = Ok l -> forall c, In (Some c) l <-> needs a c.
Proof.
  induction a as [| |k|n args IH|] using ann_ind'; intros l E c; cbn [update_imports] in E.
  - inversion E; subst. split; [intros [H|[]]; discriminate|intros H; inversion H].
  - inversion E; subst. split; [intros []|intros H; inversion H].
  - inversion E; subst. split; [intros [H|[]]; inversion H; constructor|intros H; inversion H; subst; simpl; auto].
  - destruct ((fix go l := match l with [] => Ok [] | x :: l' => let* a := update_imports x in let* r := go l' in Ok (a ++ r) end) args) as [r|] eqn:G; [|discriminate].
    cbn [bind] in E. inversion E; subst l. clear E.
    assert (R : In (Some c) r <-> exists a, In a args /\ needs a c).
    { revert r G. induction IH as [|x args Hx IH IHl]; intros r G.
      - inversion G; subst. split; [intros []|intros [a [[] _]]].
      - destruct (update_imports x) as [lx|] eqn:Ex; [|discriminate]. cbn [bind] in G.
        destruct ((fix go l := match l with [] => Ok [] | x :: l' => let* a := update_imports x in let* r := go l' in Ok (a ++ r) end) args) as [r'|]; [|discriminate].
        cbn [bind] in G. inversion G; subst r. rewrite in_app_iff, (Hx lx eq_refl c), (IHl r' eq_refl). split.
        + intros [U|[a [I U]]]; [exists x|exists a]; simpl; auto.
        + intros [a [[<-|I] U]]; eauto. }
    cbn [In]. rewrite R. split.
    + intros [Q|[a [I U]]]; [inversion Q; subst; destruct n; constructor|eapply needs_arg; eauto].
    + intros H. inversion H; subst; auto. right. eauto.
  - discriminate.
Qed.

Lemma mapM_need (t : nat -> ann) {X} (g : X -> nat) l : forall ls, mapM (fun x => update_imports (t (g x))) l = Ok ls -> forall c,
  In (Some c) (concat ls) <-> exists x, In x l /\ needs (t (g x)) c.
Proof.
  induction l as [|x l IH]; intros ls E c; cbn [mapM] in E.
  - inversion E; subst. split; [intros []|intros [x [[] _]]].
  - destruct (update_imports (t (g x))) as [lx|] eqn:Ex; [|discriminate]. cbn [bind] in E.
    destruct (mapM _ l) as [ls'|]; [|discriminate]. cbn [bind] in E. inversion E; subst ls. cbn [concat]. rewrite in_app_iff, (imports_need _ _ Ex c), (IH ls' eq_refl c). split.
    + intros [U|[y [I U]]]; [exists x|exists y]; simpl; auto.
    + intros [y [[<-|I] U]]; eauto.
Qed.

Lemma some_all {X} (l : list (option X)) m : mapM (of_option AttributeError) l = Ok m -> forall x, In x m <-> In (Some x) l.
Proof.
  revert m. induction l as [|[y|] l IH]; intros m E x; cbn [mapM of_option bind] in E; [inversion E; subst; reflexivity| |discriminate].
  destruct (mapM (of_option AttributeError) l) as [m'|]; [|discriminate]. cbn [bind] in E. inversion E; subst. simpl. rewrite (IH m' eq_refl). split; intros [H|H]; auto; left; congruence.
Qed.

Lemma all_some {X} (l : list (option X)) : (~ In None l /\ exists m, mapM (of_option AttributeError) l = Ok m)
  \/ (In None l /\ mapM (of_option AttributeError) l = Err AttributeError).
Proof.
  induction l as [|[x|] l [[N [m E]]|[I E]]]; cbn [mapM of_option bind]; try rewrite E; cbn [bind]; simpl; eauto.
  - left. split; [intros [H|H]; [discriminate|auto]|eauto].
Qed.

Lemma filter_filter {X} (f g : X -> bool) l : (forall x, In x l -> f x = true -> g x = true) -> filter f (filter g l) = filter f l.
Proof.
  induction l as [|x l IH]; intros H; auto. cbn [filter]. destruct (g x) eqn:G; cbn [filter].
  - destruct (f x); rewrite IH; auto; intros; apply H; simpl; auto.
  - destruct (f x) eqn:F; [|apply IH; intros; apply H; simpl; auto]. rewrite (H x) in G; simpl; auto. discriminate.
Qed.

Lemma filter_rank {X} (f : X -> bool) l n x : nth_error l n = Some x -> f x = true ->
  nth_error (filter f l) (length (filter f (firstn n l))) = Some x.
Proof.
  revert l. induction n as [|n IH]; intros [|y l] N F; try discriminate.
  - inversion N; subst. cbn [filter firstn length]. rewrite F. reflexivity.
  - cbn [nth_error firstn filter] in *. destruct (f y); [cbn [length nth_error]|]; apply IH; auto.
Qed.
Lemma filter_unrank {X} (f : X -> bool) l r x : nth_error (filter f l) r = Some x ->
  exists n, nth_error l n = Some x /\ f x = true /\ length (filter f (firstn n l)) = r.
Proof.
  revert r. induction l as [|y l IH]; intros r N; [destruct r; discriminate|]. cbn [filter] in N. destruct (f y) eqn:F.
  - destruct r as [|r]; [inversion N; subst; exists 0; auto|]. destruct (IH r N) as [n [A [B C]]]. exists (S n). cbn [nth_error firstn filter]. rewrite F. simpl. auto.
  - destruct (IH r N) as [n [A [B C]]]. exists (S n). cbn [nth_error firstn filter]. rewrite F. auto.
Qed.
Lemma filter_count {X} (f : X -> bool) l : length (filter f l) + length (filter (fun x => negb (f x)) l) = length l.
Proof. induction l as [|x l IH]; auto. cbn [filter]. destruct (f x); simpl; lia. Qed.

Section T.
Context {A : Type}.
Variable type_name : A -> string.
Variable repr_ok : A -> bool.
Variable params : cls -> string -> list (variable (value A) string).
Variable text : string -> value A.
Variable call : bool -> cls -> res (value A).
Notation wf := (@wf (value A)).
Notation sound := (sound params text).
Notation save_script := (save_script type_name).
Notation process_value := (process_value type_name).
Notation execute := (execute repr_ok params text call).

Lemma kept_free w imps body p : sound w -> wf_script 0 w = Ok (imps, body) -> In p (block_ports (diagram w)) -> kept body p = true ->
  has_ancestor (diagram w) (snd p) = false.
Proof.
  intros S E I K. destruct p as [[j i] v]. cbn [snd]. unfold kept in K. cbn [fst snd] in K. apply negb_true_iff in K.
  apply block_ports_In in I. destruct I as [b [N M]]. assert (WF : well_formed (diagram w)) by (destruct w; apply S).
  unfold has_ancestor. apply orb_false_iff. split.
  - destruct (existsb _ _) eqn:X; auto. apply existsb_exists in X. destruct X as [b' [Ib Iv]]. apply mem_In in Iv.
    exfalso. eapply (in_out_disjoint (diagram w) WF b b' v); eauto; [eapply nth_error_In; eauto|eapply nth_error_In; eauto].
  - destruct (existsb _ (pipes (diagram w))) eqn:X; auto. apply existsb_exists in X. destruct X as [[s t] [Ip Q]].
    apply andb_true_iff in Q. destruct Q as [Q _]. apply Nat.eqb_eq in Q. cbn [snd] in Q. subst t.
    assert (Nm : named w j i) by (eapply named_here; eauto).
    apply (is_named_spec params text w 0 imps body S E) in Nm. congruence.
Qed.

Lemma kept_ports w imps body : sound w -> wf_script 0 w = Ok (imps, body) ->
  filter (kept body) (block_ports (diagram w)) = filter (kept body) (free_ports (diagram w)).
Proof.
  intros S E. symmetry. apply filter_filter. intros p I K. rewrite (kept_free w imps body p S E I K). reflexivity.
Qed.

Lemma kept_spec w imps body p : sound w -> wf_script 0 w = Ok (imps, body) ->
  kept body p = true <-> ~ named w (fst (fst p)) (snd (fst p)).
Proof.
  intros S E. unfold kept. rewrite negb_true_iff. rewrite <- (is_named_spec params text w 0 imps body S E). symmetry. apply not_true_iff_false.
Qed.

(** Ports and inputs. *)
Lemma free_port_at d n j i : well_formed d -> input_port d n j i <-> exists v, nth_error (free_ports d) n = Some (j, i, v).
Proof.
  intros WF. split.
  - intros [b [v [N [B M]]]]. assert (I : In (j, i, v) (free_ports d)) by (apply free_port_In; auto; split; [eapply nth_error_In; eauto|eauto]).
    apply In_nth_error in I. destruct I as [m Nm]. exists v.
    assert (Nm' : nth_error (inputs d) m = Some v).
    { rewrite (inputs_split d WF), nth_error_app1 by (rewrite map_length; apply nth_error_Some; congruence). rewrite nth_error_map, Nm. reflexivity. }
    assert (ND := inputs_nodup d WF). rewrite NoDup_nth_error in ND.
    assert (n = m) by (apply ND; [apply nth_error_Some; congruence|congruence]). subst m. exact Nm.
  - intros [v N]. assert (I := nth_error_In _ _ N). apply (free_port_In d j i v WF) in I. destruct I as [_ [b [B M]]]. exists b, v. split; auto.
    rewrite (inputs_split d WF), nth_error_app1 by (rewrite map_length; apply nth_error_Some; congruence). rewrite nth_error_map, N. reflexivity.
Qed.

Lemma written_spec w imps body v : sound w -> wf_script 0 w = Ok (imps, body) ->
  (In v (map snd (filter (kept body) (free_ports (diagram w)))) \/ In v (nonblock_variables (diagram w))) <-> written_input w v.
Proof.
  intros S E. assert (WF : well_formed (diagram w)) by (destruct w; apply S). unfold written_input. split.
  - intros [I|I]; auto. right. apply in_map_iff in I. destruct I as [[[j i] u] [Eu I]]. cbn in Eu; subst u. apply filter_In in I. destruct I as [I K].
    apply (kept_spec w imps body _ S E) in K. cbn [fst snd] in K. assert (I' := I). apply In_nth_error in I. destruct I as [n N].
    apply (free_port_In _ j i v WF) in I'. destruct I' as [_ [b [B M]]]. exists n, j, i, b. split; [apply free_port_at; eauto|auto].
  - intros [I|[n [j [i [b [Ip [B [M Nn]]]]]]]]; auto. left. apply (free_port_at _ n j i WF) in Ip. destruct Ip as [u N].
    assert (I := nth_error_In _ _ N). assert (I' := I). apply (free_port_In _ j i u WF) in I'. destruct I' as [_ [b' [B' M']]].
    assert (u = v) by congruence. subst u. apply in_map_iff. exists (j, i, v). split; auto. apply filter_In. split; auto. apply (kept_spec w imps body _ S E). exact Nn.
Qed.

Lemma save_eq w type_of iv imps body : sound w -> wf_script 0 w = Ok (imps, body) ->
  (forall i, i < length (inputs (diagram w)) -> iv i <> None) ->
  let d := diagram w in let us := filter (kept body) (free_ports d) in let nb := nonblock_variables d in
  exists bv nv, length bv = length (free_ports d) /\ length nv = length nb
  /\ (forall i, i < length (free_ports d) -> nth_error bv i = iv i)
  /\ (forall k, k < length nb -> nth_error nv k = iv (length (free_ports d) + k))
  /\ save_script type_of iv w =
    let* ls := mapM (fun p => update_imports (type_of (snd p))) us in
    let* ls' := mapM (fun v => update_imports (type_of v)) nb in
    let* more := mapM (of_option AttributeError) (concat ls ++ concat ls') in
    Ok (mkScript (import_dict (imps ++ more)) body
          (map (fun px => (port_name (fst px), process_value (snd px))) (combine us bv)
           ++ map (fun kx => (NFree (fst kx), process_value (snd kx))) (combine (seq 0 (length nb)) nv))
          (map port_item us ++ map (fun k => (VName (Sub 0 (NVar k)), NFree k)) (seq 0 (length nb)))).
Proof.
  intros S E H d us nb. assert (WF : well_formed d) by (unfold d; destruct w; apply S).
  destruct (split_values d iv WF) as [Q _]. destruct (Q H) as [nv [bv [Es [Lb [Ln [Nb Nn]]]]]]. exists bv, nv.
  split; [exact Lb|]. split; [exact Ln|]. split; [exact Nb|]. split; [exact Nn|].
  unfold RunScriptModel.save_script. rewrite E. cbn [bind fst snd]. fold d. rewrite Es. cbn [bind fst snd].
  assert (Lu : length us <= length bv).
  { rewrite Lb. unfold us. assert (C := filter_count (kept body) (free_ports d)). lia. }
  rewrite (write_ports type_name type_of body bv (block_ports d) (mkW 0 [] [] [])) by (cbn [w_index]; unfold d; rewrite (kept_ports w imps body S E); exact Lu).
  unfold d at 1. rewrite (kept_ports w imps body S E). fold d us. cbn [w_index w_values w_items w_imports].
  destruct (mapM _ us) as [ls|]; [|reflexivity]. cbn [bind]. unfold enumerate. fold nb.
  rewrite (write_nbvs type_name type_of nv nb 0) by (cbn [Nat.add]; rewrite Ln; apply le_n). cbn [w_index w_values w_items w_imports skipn app].
  destruct (mapM _ nb) as [ls'|]; [|reflexivity]. cbn [bind w_imports w_values w_items]. reflexivity.
Qed.

(** Saving the script of a run of a workflow whose inputs have values succeeds exactly when
    all inputs it writes are typed. *)
Theorem C50_saved (w : wf) type_of iv : sound w -> (forall i, i < length (inputs (diagram w)) -> iv i <> None) ->
  (forall v, written_input w v -> has_schema (type_of v)) ->
  ((exists script, save_script type_of iv w = Ok script) /\ forall v, written_input w v -> ~ untyped (type_of v))
  \/ (save_script type_of iv w = Err AttributeError /\ exists v, written_input w v /\ untyped (type_of v)).
Proof.
  intros S H HS. destruct (wf_gen_all params text w S 0) as [imps [body [E _]]].
  destruct (save_eq w type_of iv imps body S E H) as [bv [nv [_ [_ [_ [_ Eq]]]]]]. rewrite Eq. clear Eq.
  assert (W := fun v => written_spec w imps body v S E).
  destruct (mapM_imports type_of snd (filter (kept body) (free_ports (diagram w)))) as [ls [El Ul]].
  { intros p I. apply HS, W. left. apply in_map. exact I. }
  destruct (mapM_imports type_of (fun v => v) (nonblock_variables (diagram w))) as [ls' [El' Ul']].
  { intros v I. apply HS, W. auto. }
  rewrite El. cbn [bind]. rewrite El'. cbn [bind].
  assert (U : In None (concat ls ++ concat ls') <-> exists v, written_input w v /\ untyped (type_of v)).
  { rewrite in_app_iff, Ul, Ul'. split.
    - intros [[p [I U]]|[v [I U]]]; [exists (snd p)|exists v]; split; auto; apply W; [left; apply in_map; exact I|auto].
    - intros [v [I U]]. apply W in I. destruct I as [I|I]; [left|right; eauto]. apply in_map_iff in I. destruct I as [p [<- I]]. eauto. }
  destruct (all_some (concat ls ++ concat ls')) as [[N [m Em]]|[I Em]]; rewrite Em; cbn [bind].
  - left. split; [eauto|]. intros v Iv Uv. apply N, U. eauto.
  - right. split; auto. apply U, I.
Qed.

(** A missing value raises. *)
Theorem C50_missing_value (w : wf) type_of iv i : sound w -> i < length (inputs (diagram w)) -> iv i = None ->
  save_script type_of iv w = Err KeyError.
Proof.
  intros S L N. destruct (wf_gen_all params text w S 0) as [imps [body [E _]]].
  assert (WF : well_formed (diagram w)) by (destruct w; apply S).
  unfold RunScriptModel.save_script. rewrite E. cbn [bind fst snd].
  destruct (split_values (diagram w) iv WF) as [_ Q]. rewrite Q; eauto.
Qed.

Lemma saved_all w type_of iv script : sound w -> save_script type_of iv w = Ok script ->
  forall i, i < length (inputs (diagram w)) -> iv i <> None.
Proof. intros S E i L N. rewrite (C50_missing_value w type_of iv i S L N) in E. discriminate. Qed.

Lemma saved_shape w type_of iv script : sound w -> save_script type_of iv w = Ok script ->
  let d := diagram w in let nb := nonblock_variables d in
  exists imps body bv nv more, wf_script 0 w = Ok (imps, body)
  /\ (forall c, In c more <-> exists v, written_input w v /\ needs (type_of v) c)
  /\ length bv = length (free_ports d) /\ length nv = length nb
  /\ (forall i, i < length (free_ports d) -> nth_error bv i = iv i)
  /\ (forall k, k < length nb -> nth_error nv k = iv (length (free_ports d) + k))
  /\ script = mkScript (import_dict (imps ++ more)) body
          (map (fun px => (port_name (fst px), process_value (snd px))) (combine (filter (kept body) (free_ports d)) bv)
           ++ map (fun kx => (NFree (fst kx), process_value (snd kx))) (combine (seq 0 (length nb)) nv))
          (map port_item (filter (kept body) (free_ports d)) ++ map (fun k => (VName (Sub 0 (NVar k)), NFree k)) (seq 0 (length nb))).
Proof.
  intros S Es d nb. destruct (wf_gen_all params text w S 0) as [imps [body [E _]]].
  destruct (save_eq w type_of iv imps body S E (saved_all w type_of iv script S Es)) as [bv [nv [Lb [Ln [Nb [Nn Eq]]]]]].
  rewrite Es in Eq. fold d nb in Eq. destruct (mapM _ (filter (kept body) (free_ports d))) as [ls|] eqn:M1; [|discriminate]. cbn [bind] in Eq.
  destruct (mapM _ nb) as [ls'|] eqn:M2; [|discriminate]. cbn [bind] in Eq. destruct (mapM _ (concat ls ++ concat ls')) as [more|] eqn:M3; [|discriminate].
  cbn [bind] in Eq. inversion Eq. exists imps, body, bv, nv, more. split; auto. split; [|auto 10].
  intros c. rewrite (some_all _ _ M3), in_app_iff, (mapM_need type_of snd _ _ M1 c), (mapM_need type_of (fun v => v) _ _ M2 c).
  assert (W := fun v => written_spec w imps body v S E). split.
  - intros [[p [I U]]|[v [I U]]]; [exists (snd p)|exists v]; split; auto; apply W; [left; apply in_map; exact I|auto].
  - intros [v [I U]]. apply W in I. destruct I as [I|I]; [left|right; eauto]. apply in_map_iff in I. destruct I as [p [<- I]]. eauto.
Qed.

(** The script imports what the script of the workflow does, and what the types of the
    inputs it writes need. *)
Theorem C50_imports (w : wf) type_of iv script : sound w -> save_script type_of iv w = Ok script -> set_free w ->
  forall c, imported (r_imports script) c <-> In c (uses w) \/ exists v, written_input w v /\ needs (type_of v) c.
Proof.
  intros S Es F c. destruct (saved_shape w type_of iv script S Es) as [imps [body [bv [nv [more [E [M [_ [_ [_ [_ Sh]]]]]]]]]]].
  destruct (wf_gen_all params text w S 0) as [imps' [body' [Eg [_ [I J]]]]]. rewrite E in Eg. inversion Eg; subst imps' body'.
  rewrite Sh. cbn [r_imports]. rewrite (proj2 (import_dict_spec (imps ++ more))), in_app_iff, M. split; intros [H|H]; auto.
Qed.

Lemma combine_nth_some {X Y} (l : list X) (m : list Y) n x y : nth_error (combine l m) n = Some (x, y) <-> nth_error l n = Some x /\ nth_error m n = Some y.
Proof.
  revert m n. induction l as [|a l IH]; intros [|b m] [|n]; cbn; try (split; [discriminate|intros [? ?]; discriminate]).
  - split; [intros E; inversion E; auto|intros [E F]; congruence].
  - apply IH.
Qed.

Lemma skipped_count w imps body n ks : sound w -> wf_script 0 w = Ok (imps, body) -> n <= length (free_ports (diagram w)) -> NoDup ks ->
  (forall k, In k ks <-> k < n /\ exists j i, input_port (diagram w) k j i /\ named w j i) ->
  length ks = length (filter (fun p => negb (kept body p)) (firstn n (free_ports (diagram w)))).
Proof.
  intros S E Ln ND K. assert (WF : well_formed (diagram w)) by (destruct w; apply S).
  set (fp := free_ports (diagram w)) in *.
  set (ks' := map fst (filter (fun x => negb (kept body (snd x))) (enumerate (firstn n fp)))).
  assert (Lk : length ks' = length (filter (fun p => negb (kept body p)) (firstn n fp))).
  { unfold ks'. rewrite map_length. rewrite <- (enumerate_snd (firstn n fp)) at 2. rewrite <- (filter_map_snd (fun p => negb (kept body p))), map_length. reflexivity. }
  rewrite <- Lk.
  assert (NF : forall (l : list (nat * (nat * nat * nat))) f, NoDup (map fst l) -> NoDup (map fst (filter f l))).
  { intros l f. induction l as [|x l IH]; intros N; auto. inversion N; subst. cbn [filter]. destruct (f x); cbn [map]; auto. constructor; auto.
    intros I. apply H1. apply in_map_iff in I. destruct I as [y [Ey I]]. apply filter_In in I. apply in_map_iff. exists y. tauto. }
  assert (ND' : NoDup ks') by (apply NF; rewrite enumerate_fst; apply seq_NoDup).
  assert (K' : forall k, In k ks' <-> k < n /\ exists j i, input_port (diagram w) k j i /\ named w j i).
  { intros k. unfold ks'. rewrite in_map_iff. split.
    - intros [[k' [[j i] v]] [Ek I]]. cbn in Ek; subst k'. apply filter_In in I. destruct I as [I Kp]. apply enumerate_In in I.
      cbn [snd] in Kp. apply negb_true_iff in Kp.
      assert (Lt : k < length (firstn n fp)) by (apply nth_error_Some; congruence). rewrite firstn_length in Lt.
      assert (Nf : nth_error fp k = Some (j, i, v)).
      { rewrite <- (firstn_skipn n fp), nth_error_app1 by (apply nth_error_Some; congruence). exact I. }
      split; [lia|]. exists j, i. split; [apply free_port_at; eauto|].
      destruct (is_named body j i) eqn:Q; [apply (is_named_spec params text w 0 imps body S E); exact Q|].
      unfold kept in Kp. cbn [fst snd] in Kp. rewrite Q in Kp. discriminate.
    - intros [Lt [j [i [Ip Nm]]]]. apply (free_port_at _ k j i WF) in Ip. destruct Ip as [v N]. exists (k, (j, i, v)). split; auto.
      apply filter_In. split.
      + apply enumerate_In. fold fp in N. rewrite <- (firstn_skipn n fp), nth_error_app1 in N by (rewrite firstn_length; apply nth_error_Some in N || idtac; lia). exact N.
      + cbn [snd]. unfold kept. cbn [fst snd]. rewrite negb_involutive. apply (is_named_spec params text w 0 imps body S E). exact Nm. }
  apply Nat.le_antisymm; apply NoDup_incl_length; auto; intros k I; [apply K', K|apply K, K']; exact I.
Qed.


Lemma skipped_exists w imps body n : sound w -> wf_script 0 w = Ok (imps, body) -> n <= length (free_ports (diagram w)) ->
  exists ks, NoDup ks /\ forall k, In k ks <-> k < n /\ exists j i, input_port (diagram w) k j i /\ named w j i.
Proof.
  intros S E Ln. assert (WF : well_formed (diagram w)) by (destruct w; apply S).
  exists (map fst (filter (fun x : nat * (nat * nat * nat) => negb (kept body (snd x))) (enumerate (firstn n (free_ports (diagram w)))))).
  set (fp := free_ports (diagram w)) in *. split.
  - assert (NF : forall (l : list (nat * (nat * nat * nat))) f, NoDup (map fst l) -> NoDup (map fst (filter f l))).
    { intros l f. induction l as [|x l IH]; intros N; auto. inversion N; subst. cbn [filter]. destruct (f x); cbn [map]; auto. constructor; auto.
      intros I. apply H1. apply in_map_iff in I. destruct I as [y [Ey I]]. apply filter_In in I. apply in_map_iff. exists y. tauto. }
    apply NF. rewrite enumerate_fst. apply seq_NoDup.
  - intros k. rewrite in_map_iff. split.
    + intros [[k' [[j i] v]] [Ek I]]. cbn in Ek; subst k'. apply filter_In in I. destruct I as [I Kp]. apply enumerate_In in I.
      cbn [snd] in Kp. apply negb_true_iff in Kp.
      assert (Lt : k < length (firstn n fp)) by (apply nth_error_Some; congruence). rewrite firstn_length in Lt.
      assert (Nf : nth_error fp k = Some (j, i, v)).
      { rewrite <- (firstn_skipn n fp), nth_error_app1 by (apply nth_error_Some; congruence). exact I. }
      split; [lia|]. exists j, i. split; [apply free_port_at; eauto|].
      destruct (is_named body j i) eqn:Q; [apply (is_named_spec params text w 0 imps body S E); exact Q|].
      unfold kept in Kp. cbn [fst snd] in Kp. rewrite Q in Kp. discriminate.
    + intros [Lt [j [i [Ip Nm]]]]. apply (free_port_at _ k j i WF) in Ip. destruct Ip as [v N]. exists (k, (j, i, v)). split; auto.
      apply filter_In. split.
      * apply enumerate_In. fold fp in N. rewrite <- (firstn_skipn n fp), nth_error_app1 in N by (rewrite firstn_length; lia). exact N.
      * cbn [snd]. unfold kept. cbn [fst snd]. rewrite negb_involutive. apply (is_named_spec params text w 0 imps body S E). exact Nm.
Qed.

(** The port at [n] takes the value at its rank among the ports kept. *)
Lemma takes_rank w imps body n m j i v : sound w -> wf_script 0 w = Ok (imps, body) -> nth_error (free_ports (diagram w)) n = Some (j, i, v) ->
  kept body (j, i, v) = true ->
  takes w n m <-> m = length (filter (kept body) (firstn n (free_ports (diagram w)))).
Proof.
  intros S E N K. assert (WF : well_formed (diagram w)) by (destruct w; apply S).
  assert (Ln : n < length (free_ports (diagram w))) by (apply nth_error_Some; congruence).
  assert (Cn := filter_count (kept body) (firstn n (free_ports (diagram w)))). rewrite firstn_length, Nat.min_l in Cn by lia.
  assert (C : forall ks, NoDup ks -> (forall k, In k ks <-> k < n /\ exists j' i', input_port (diagram w) k j' i' /\ named w j' i') ->
    n - length ks = length (filter (kept body) (firstn n (free_ports (diagram w))))).
  { intros ks ND Kk. rewrite (skipped_count w imps body n ks S E (Nat.lt_le_incl _ _ Ln) ND Kk). lia. }
  split.
  - intros T. inversion T as [n' u Nu Iu|n' j' i' ks Ip Nn ND Kk]; subst; [|apply C; auto].
    exfalso. rewrite (inputs_split _ WF), nth_error_app1, nth_error_map, N in Nu by (rewrite map_length; exact Ln). cbn in Nu. inversion Nu; subst u.
    assert (I := nth_error_In _ _ N). apply (free_port_In _ j i v WF) in I. destruct I as [_ [b [B M]]].
    apply (nbv_In _ WF) in Iu. apply (proj2 Iu), in_block_variables. exists b. split; [eapply nth_error_In; eauto|left; eapply nth_error_In; eauto].
  - intros ->. destruct (skipped_exists w imps body n S E (Nat.lt_le_incl _ _ Ln)) as [ks [ND Kk]]. rewrite <- (C ks ND Kk).
    apply (takes_port w n j i ks); auto; [apply free_port_at; eauto|apply (kept_spec w imps body (j, i, v) S E); exact K].
Qed.

(** A free variable takes its own value. *)
Lemma takes_own w n m k v : sound w -> nth_error (nonblock_variables (diagram w)) k = Some v -> n = length (free_ports (diagram w)) + k ->
  takes w n m <-> m = n.
Proof.
  intros S N ->. assert (WF : well_formed (diagram w)) by (destruct w; apply S).
  assert (Ni : nth_error (inputs (diagram w)) (length (free_ports (diagram w)) + k) = Some v).
  { rewrite (inputs_split _ WF), nth_error_app2, map_length by (rewrite map_length; lia).
    replace (length (free_ports (diagram w)) + k - length (free_ports (diagram w))) with k by lia. exact N. }
  split; [|intros ->; eapply takes_free; eauto; eapply nth_error_In; eauto].
  intros T. inversion T as [n' u Nu Iu|n' j' i' ks Ip Nn ND Kk]; subst; auto.
  apply (free_port_at _ _ j' i' WF) in Ip. destruct Ip as [u Nu]. exfalso.
  assert (length (free_ports (diagram w)) + k < length (free_ports (diagram w))) by (apply nth_error_Some; congruence). lia.
Qed.

(** An input that takes a value is a port kept or a free variable. *)
Lemma takes_inv w imps body n m : sound w -> wf_script 0 w = Ok (imps, body) -> takes w n m ->
  (exists p, nth_error (free_ports (diagram w)) n = Some p /\ kept body p = true)
  \/ exists k v, n = length (free_ports (diagram w)) + k /\ nth_error (nonblock_variables (diagram w)) k = Some v.
Proof.
  intros S E T. assert (WF : well_formed (diagram w)) by (destruct w; apply S).
  inversion T as [n' u Nu Iu|n' j' i' ks Ip Nn ND Kk]; subst.
  - right. apply In_nth_error in Iu. destruct Iu as [k Nk]. exists k, u. split; auto.
    assert (Ni : nth_error (inputs (diagram w)) (length (free_ports (diagram w)) + k) = Some u).
    { rewrite (inputs_split _ WF), nth_error_app2, map_length by (rewrite map_length; lia).
      replace (length (free_ports (diagram w)) + k - length (free_ports (diagram w))) with k by lia. exact Nk. }
    assert (ND := inputs_nodup _ WF). rewrite NoDup_nth_error in ND. apply ND; [apply nth_error_Some; congruence|congruence].
  - left. apply (free_port_at _ n j' i' WF) in Ip. destruct Ip as [u N]. exists (j', i', u). split; auto. apply (kept_spec w imps body _ S E). exact Nn.
Qed.

(** The values written: one line for each free variable and each input of a block that the
    script does not name; see [takes]. *)
Theorem C50_values (w : wf) type_of iv script : sound w -> save_script type_of iv w = Ok script ->
  NoDup (map fst (r_values script))
  /\ (forall j i y, In (NPort j i, y) (r_values script) <->
        exists n m x, input_port (diagram w) n j i /\ takes w n m /\ iv m = Some x /\ y = process_value x)
  /\ (forall k y, In (NFree k, y) (r_values script) <->
        exists v n x, nth_error (nonblock_variables (diagram w)) k = Some v /\ nth_error (inputs (diagram w)) n = Some v
        /\ iv n = Some x /\ y = process_value x).
Proof.
  intros S Es. assert (WF : well_formed (diagram w)) by (destruct w; apply S).
  destruct (saved_shape w type_of iv script S Es) as [imps [body [bv [nv [more [E [_ [Lb [Ln [Nb [Nn ->]]]]]]]]]]]. cbn [r_values].
  set (d := diagram w) in *. set (fp := free_ports d) in *. set (us := filter (kept body) fp) in *. set (nb := nonblock_variables d) in *.
  assert (Lu : length us <= length bv) by (rewrite Lb; unfold us; assert (C := filter_count (kept body) fp); lia).
  assert (NDf : NoDup (inputs d)) by (apply inputs_nodup; exact WF).
  split; [|split].
  - rewrite map_app, !map_map. cbn [fst].
    assert (F1 : forall X Y (l : list X) (m : list Y), length l <= length m -> map fst (combine l m) = l).
    { intros X Y l. induction l as [|x l IH]; intros [|y m] H; cbn in *; auto; try lia. rewrite IH by lia. reflexivity. }
    rewrite <- (map_map fst port_name (combine us bv)), (F1 _ _ us bv Lu).
    rewrite <- (map_map fst NFree (combine (seq 0 (length nb)) nv)), F1 by (rewrite seq_length, Ln; apply le_n).
    assert (Inj : forall (X Y : Type) (f : X -> Y) l, NoDup l -> (forall a b, In a l -> In b l -> f a = f b -> a = b) -> NoDup (map f l)).
    { intros X Y f l ND. induction ND as [|x l Nx ND IH]; intros H; cbn [map]; constructor.
      - intros I. apply in_map_iff in I. destruct I as [y [Ey Iy]]. rewrite (H y x) in Iy; simpl; auto.
      - apply IH. intros a b Ia Ib. apply H; simpl; auto. }
    assert (NDfp : NoDup fp).
    { rewrite (inputs_split d WF) in NDf. apply (NoDup_map_inv snd). fold fp in NDf. clear - NDf.
      induction (map snd fp) as [|x l IH]; [constructor|]. cbn [app] in NDf. inversion NDf; subst. constructor; [|apply IH; assumption].
      intros I. apply H1, in_app_iff. auto. }
    assert (D : forall a b, NoDup a -> NoDup b -> (forall x : vname, In x a -> ~ In x b) -> NoDup (a ++ b)).
    { clear. induction a as [|x a IH]; intros b Na Nb H; auto. inversion Na; subst. cbn [app]. constructor.
      - rewrite in_app_iff. intros [I|I]; auto. apply (H x); simpl; auto.
      - apply IH; auto. intros y I. apply H. simpl; auto. }
    apply D.
    + apply Inj; [apply NoDup_filter; exact NDfp|]. intros [[j i] v] [[j' i'] v'] Ia Ib Eq. inversion Eq; subst j' i'.
      apply filter_In, proj1 in Ia. apply filter_In, proj1 in Ib. apply (free_port_In d j i v WF) in Ia. apply (free_port_In d j i v' WF) in Ib.
      destruct Ia as [_ [b [B M]]], Ib as [_ [b' [B' M']]]. congruence.
    + apply Inj; [apply seq_NoDup|]. intros a b _ _ Eq. inversion Eq; auto.
    + intros x I J. apply in_map_iff in I. apply in_map_iff in J. destruct I as [p [<- _]], J as [k [Ek _]]. discriminate.
  - intros j i y. rewrite in_app_iff. split.
    + intros [I|I]; [|apply in_map_iff in I; destruct I as [? [Eq _]]; discriminate].
      apply in_map_iff in I. destruct I as [[[[j' i'] v] x] [Eq I]]. cbn in Eq. inversion Eq; subst j' i' y. clear Eq.
      apply In_nth_error in I. destruct I as [r N]. apply combine_nth_some in N. destruct N as [N1 N2].
      apply filter_unrank in N1. destruct N1 as [n [Np [Kp Rk]]].
      exists n, r, x. split; [apply free_port_at; eauto|]. split; [apply (takes_rank w imps body n r j i v S E Np Kp); auto|]. split; auto.
      rewrite <- Nb; auto. assert (Cn := filter_count (kept body) (firstn n fp)). rewrite firstn_length in Cn.
      assert (n < length fp) by (apply nth_error_Some; congruence). lia.
    + intros [n [m [x [Ip [T [Ex ->]]]]]]. left. apply in_map_iff.
      apply (free_port_at d n j i WF) in Ip. destruct Ip as [v Np]. fold fp in Np.
      destruct (takes_inv w imps body n m S E T) as [[p [Np' Kp]]|[k [u [En Nk]]]].
      * fold d fp in Np'. assert (p = (j, i, v)) by congruence. subst p.
        apply (takes_rank w imps body n m j i v S E Np Kp) in T. fold d fp in T. exists (j, i, v, x). split; auto.
        apply (nth_error_In _ m). apply combine_nth_some. split; [subst m; apply filter_rank; auto|].
        rewrite Nb; auto. assert (Cn := filter_count (kept body) (firstn n fp)). rewrite firstn_length in Cn.
        assert (n < length fp) by (apply nth_error_Some; congruence). lia.
      * exfalso. fold d fp in En. assert (n < length fp) by (apply nth_error_Some; congruence). lia.
  - intros k y. rewrite in_app_iff. split.
    + intros [I|I]; [apply in_map_iff in I; destruct I as [? [Eq _]]; discriminate|].
      apply in_map_iff in I. destruct I as [[k' x] [Eq I]]. cbn in Eq. inversion Eq; subst k' y. clear Eq.
      apply In_nth_error in I. destruct I as [r N]. apply combine_nth_some in N. destruct N as [N1 N2].
      assert (Lr : r < length nb) by (rewrite <- Ln; apply nth_error_Some; congruence).
      assert (r = k). { rewrite (nth_error_nth' _ 0) in N1 by (rewrite seq_length; exact Lr). rewrite seq_nth in N1 by exact Lr. cbn [Nat.add] in N1. inversion N1. reflexivity. } subst r.
      destruct (nth_error nb k) as [v|] eqn:Nv; [|apply nth_error_None in Nv; lia]. exists v, (length fp + k), x. split; auto. split.
      * rewrite (inputs_split d WF), nth_error_app2, map_length by (rewrite map_length; fold fp; lia). fold fp nb. replace (length fp + k - length fp) with k by lia. exact Nv.
      * split; auto. rewrite <- Nn; auto.
    + intros [v [n [x [Nv [Ni [Ex ->]]]]]]. right. apply in_map_iff. exists (k, x). split; auto.
      assert (Lk : k < length nb) by (apply nth_error_Some; congruence).
      assert (Ni' : nth_error (inputs d) (length fp + k) = Some v).
      { rewrite (inputs_split d WF), nth_error_app2, map_length by (rewrite map_length; fold fp; lia). fold fp nb. replace (length fp + k - length fp) with k by lia. exact Nv. }
      assert (n = length fp + k). { rewrite NoDup_nth_error in NDf. apply NDf; [apply nth_error_Some; congruence|congruence]. } subst n.
      apply (nth_error_In _ k). apply combine_nth_some. split; [|rewrite Nn; auto].
      rewrite (nth_error_nth' _ 0) by (rewrite seq_length; exact Lk). rewrite seq_nth by exact Lk. reflexivity.
Qed.

(** ** Executing the script *)

Lemma NoDup_map_on {X Y} (f : X -> Y) l : NoDup l -> (forall a b, In a l -> In b l -> f a = f b -> a = b) -> NoDup (map f l).
Proof.
  intros ND. induction ND as [|x l Nx ND IH]; intros H; cbn [map]; constructor.
  - intros I. apply in_map_iff in I. destruct I as [y [Ey Iy]]. rewrite (H y x) in Iy; simpl; auto.
  - apply IH. intros a b Ia Ib. apply H; simpl; auto.
Qed.

Lemma relabel_wf d h : well_formed d -> separates h d -> well_formed (relabel h d).
Proof.
  intros WF SEP. assert (PI := ports_incl d WF). assert (PE := ends_in d WF). split.
  - rewrite (block_variables_map d h). apply NoDup_map_on; [apply WF|]. intros a b Ia Ib. apply SEP; auto.
  - cbn [relabel pipes]. rewrite map_map. cbn [snd]. rewrite <- (map_map snd h). apply NoDup_map_on; [apply WF|].
    intros a b Ia Ib. apply in_map_iff in Ia. apply in_map_iff in Ib. destruct Ia as [p [<- Ip]], Ib as [q [<- Iq]]. apply SEP; apply PE; auto.
  - cbn [relabel pipes blocks]. intros s t I. apply in_map_iff in I. destruct I as [[s0 t0] [Eq I]]. inversion Eq; subst s t.
    destruct (wf_target d WF s0 t0 I) as [b [Ib It]]. eexists. split; [apply in_map; exact Ib|]. cbn [b_in snd]. apply in_map. exact It.
  - cbn [relabel pipes blocks]. intros s t b I Ib. apply in_map_iff in I. destruct I as [[s0 t0] [Eq I]]. inversion Eq; subst s t.
    apply in_map_iff in Ib. destruct Ib as [b0 [<- Ib]]. cbn [b_in fst]. intros J. apply in_map_iff in J. destruct J as [v [Ev Iv]].
    assert (v = s0). { apply SEP; auto; [apply PI, in_block_variables; eauto|exact (proj1 (PE _ I))]. } subst v.
    exact (wf_source d WF s0 t0 b0 I Ib Iv).
  - cbn [relabel output blocks]. intros o Eo. destruct (output d) as [o0|] eqn:E0; [|discriminate]. inversion Eo; subst o.
    destruct (wf_output d WF o0 E0) as [b [Ib Io]]. eexists. split; [apply in_map; exact Ib|]. cbn [b_out]. apply in_map. exact Io.
Qed.

Lemma index_relabel d h n v : well_formed d -> separates h d -> nth_error (inputs d) n = Some v -> input_index (relabel h d) (h v) = Some n.
Proof.
  intros WF SEP N. assert (N' : nth_error (inputs (relabel h d)) n = Some (h v)) by (rewrite (inputs_map d WF h SEP), nth_error_map, N; reflexivity).
  apply (input_index_some _ (relabel_wf d h WF SEP)); auto. eapply nth_error_In; eauto.
Qed.

(** Values read back. *)
Lemma full_literal v : inner_full repr_ok v -> literal repr_ok v = true /\ is_object v = false /\ is_file_or_file_sequence v = false.
Proof.
  revert v. fix IH 1. intros [x|c x|c x|t l] F; cbn in F; try contradiction; [cbn; auto|].
  assert (Q : forallb (literal repr_ok) l = true /\ existsb is_file_or_file_sequence l = false).
  { revert F. induction l as [|y l IHl]; intros F; [auto|]. destruct F as [F1 F2]. destruct (IH y F1) as [G1 [_ C]], (IHl F2) as [D E].
    cbn [forallb existsb]. rewrite G1, C, D, E. auto. }
  destruct Q as [Q1 Q2]. split; [exact Q1|]. split; [reflexivity|exact Q2].
Qed.

Section Read.
Variable imports : list (string * list string).
Hypothesis U : forall a b, imported imports a -> imported imports b -> c_name a = c_name b -> a = b.

Lemma found c : imported imports c -> lookup imports (c_name c) = Some c.
Proof.
  intros I. destruct (lookup imports (c_name c)) as [c'|] eqn:L.
  - apply lookup_imported in L. destruct L as [J E]. f_equal. apply U; auto.
  - exfalso. exact (lookup_none _ _ _ L I eq_refl).
Qed.

Lemma read v y : read_back repr_ok call imports v y ->
  value_parses repr_ok (process_value v) = true /\ eval_written call imports (process_value v) = Ok y.
Proof.
  intros R. inversion R as [v' F|c x y' I C|c x y' I C|t l ys F|t l ys NE F]; subst.
  - destruct F as [F NT]. destruct (full_literal y F) as [L1 [L2 L3]].
    unfold RunScriptModel.process_value. destruct (is_object_or_object_sequence y) eqn:O.
    + destruct y as [x|c x|c x|t [|z l]]; try discriminate; try contradiction.
      * destruct t; [congruence|]. cbn. auto.
      * cbn in O. destruct F as [F _]. destruct (full_literal z F) as [_ [Z _]]. rewrite Z in O. discriminate.
    + rewrite L3. cbn. auto.
  - cbn. unfold call_named, resolve. rewrite (found c I). cbn. auto.
  - cbn. unfold call_named, resolve. rewrite (found c I). cbn. auto.
  - assert (O : forallb is_object l = true).
    { clear - F. induction F as [|a b l ys [c [x [-> _]]] F IH]; cbn; auto. }
    unfold RunScriptModel.process_value. cbn [is_object_or_object_sequence]. rewrite O. cbn [generate_input_string]. split; [reflexivity|]. cbn [eval_written].
    assert (M : mapM (call_named call imports false) (map (class_name type_name) l) = Ok ys).
    { clear - F U. induction F as [|a b l ys [c [x [-> [I C]]]] F IH]; cbn [map mapM]; auto. cbn [class_name].
      unfold call_named at 1, resolve. rewrite (found c I). cbn [of_option bind]. rewrite C. cbn [bind]. rewrite IH. reflexivity. }
    rewrite M. reflexivity.
  - destruct F as [|a b l ys [c [x [-> [I C]]]] F]; [congruence|].
    unfold RunScriptModel.process_value. cbn [is_object_or_object_sequence forallb is_object andb is_file_or_file_sequence existsb orb generate_input_string]. split; [reflexivity|].
    cbn [eval_written map class_name mapM]. unfold call_named at 1, resolve. rewrite (found c I). cbn [of_option bind]. rewrite C. cbn [bind].
    assert (M : mapM (call_named call imports true) (map (class_name type_name) l) = Ok ys).
    { clear - F U. induction F as [|a b l ys [c [x [-> [I C]]]] F IH]; cbn [map mapM]; auto. cbn [class_name].
      unfold call_named at 1, resolve. rewrite (found c I). cbn [of_option bind]. rewrite C. cbn [bind]. rewrite IH. reflexivity. }
    rewrite M. reflexivity.
Qed.

Lemma assign_all vals : forall e, NoDup (map fst vals) -> (forall x, In x vals -> exists y, eval_written call imports (snd x) = Ok y) ->
  exists e', foldM (assign call imports) vals e = Ok e'
  /\ (forall x y, In x vals -> eval_written call imports (snd x) = Ok y -> e' (fst x) = Some y)
  /\ (forall n, ~ In n (map fst vals) -> e' n = e n).
Proof.
  assert (EQ : forall a b, vname_eqb a b = true <-> a = b).
  { intros [j i|k] [j' i'|k']; cbn; try (split; discriminate); [rewrite andb_true_iff, !Nat.eqb_eq|rewrite Nat.eqb_eq].
    - split; [intros [-> ->]; reflexivity|intros Q; inversion Q; auto].
    - split; [intros ->; reflexivity|intros Q; inversion Q; auto]. }
  induction vals as [|x vals IH]; intros e ND H; cbn [foldM].
  - exists e. split; auto. split; [intros x y []|auto].
  - inversion ND as [|? ? Nx ND']; subst. destruct (H x (or_introl eq_refl)) as [y Ey]. unfold assign at 1. rewrite Ey. cbn [bind].
    destruct (IH (fun n => if vname_eqb (fst x) n then Some y else e n) ND' (fun z I => H z (or_intror I))) as [e' [F [P Q]]].
    exists e'. split; [exact F|]. split.
    + intros z y' [<-|I] Ez; [|apply P; auto]. rewrite Q by exact Nx. rewrite (proj2 (EQ _ _) eq_refl). congruence.
    + intros n Nn. cbn [map] in Nn. rewrite Q by (intros I; apply Nn; simpl; auto). destruct (vname_eqb (fst x) n) eqn:V; auto.
      exfalso. apply Nn. simpl. left. apply EQ, V.
Qed.
End Read.

Lemma mapM_in {X Y} (f : X -> res Y) l : (forall x, In x l -> exists y, f x = Ok y) ->
  exists r, mapM f l = Ok r /\ (forall y, In y r <-> exists x, In x l /\ f x = Ok y).
Proof.
  induction l as [|x l IH]; intros H.
  - exists []. split; auto. intros y. split; [intros []|intros [x [[] _]]].
  - destruct (H x (or_introl eq_refl)) as [y Ey]. destruct (IH (fun z I => H z (or_intror I))) as [r [Er R]].
    cbn [mapM]. rewrite Ey. cbn [bind]. rewrite Er. cbn [bind]. eexists. split; [reflexivity|]. intros z. cbn [In]. rewrite R. split.
    + intros [<-|[u [I E]]]; [exists x|exists u]; auto.
    + intros [u [[<-|I] E]]; [left; congruence|right; eauto].
Qed.

Lemma mapM_nodup {X Y Z} (f : X -> res (Y * Z)) l : NoDup l ->
  (forall a b y z z', In a l -> In b l -> f a = Ok (y, z) -> f b = Ok (y, z') -> a = b) ->
  forall r, mapM f l = Ok r -> NoDup (map fst r).
Proof.
  intros ND. induction ND as [|x l Nx ND IH]; intros H r E; cbn [mapM] in E; [inversion E; constructor|].
  destruct (f x) as [[y z]|] eqn:Ex; [|discriminate]. cbn [bind] in E. destruct (mapM f l) as [r'|] eqn:Er; [|discriminate]. cbn [bind] in E. inversion E; subst r.
  cbn [map fst]. constructor.
  - intros I. apply in_map_iff in I. destruct I as [[y' z'] [Ey I]]. cbn in Ey; subst y'.
    apply mapM_ok_inv in Er. assert (exists u, In u l /\ f u = Ok (y, z')) as [u [Iu Eu]].
    { clear - Er I. induction Er as [|u [a b] l r Eu Er IH]; [destruct I|]. destruct I as [Eq|I]; [inversion Eq; subst; exists u; simpl; auto|].
      destruct (IH I) as [v [Iv Ev]]. exists v. simpl. auto. }
    apply Nx. rewrite (H x u y z z'); simpl; auto.
  - apply IH; auto. intros a b y0 z0 z0' Ia Ib. apply H; simpl; auto.
Qed.

Lemma executed (w : wf) type_of iv script : unlocked_params params -> sound w -> save_script type_of iv w = Ok script ->
  (forall a b, imported (r_imports script) a -> imported (r_imports script) b -> c_name a = c_name b -> a = b) ->
  (forall c, In c (uses w) -> imported (r_imports script) c) ->
  (forall c, imported (r_imports script) c -> c_name c <> "None") ->
  locks_kept params text w ->
  (forall n m x, takes w n m -> iv m = Some x -> exists y, read_back repr_ok call (r_imports script) x y) ->
  exists w' given, execute script = Ok (w', given) /\ comes_back params text w w' /\ NoDup (map fst given)
  /\ (forall i v', nth_error (inputs (diagram w')) i = Some v' -> v_lock (info w' v') = true -> v_default (info w' v') <> None)
  /\ forall k y, In (k, y) given <-> exists n m x, k = Some n /\ takes w n m /\ iv m = Some x /\ read_back repr_ok call (r_imports script) x y.
Proof.
  intros UP Sd Es U K NN L RB. assert (WF : well_formed (diagram w)) by (destruct w; apply Sd).
  destruct (C50_values w type_of iv script Sd Es) as [NDv [Vp Vf]].
  destruct (saved_shape w type_of iv script Sd Es) as [imps [body [bv [nv [more [E [_ [Lb [Ln [Nb [Nn Sh]]]]]]]]]]].
  destruct (wf_gen_all params text w Sd 0) as [imps' [body' [Eg [P _]]]]. rewrite E in Eg. inversion Eg; subst imps' body'. clear Eg.
  assert (Kn : known (r_imports script) (uses w)) by (intros c J; apply found; auto).
  destruct (wf_runs_all params text UP (r_imports script) w Sd Kn 0) as [imps' [body' [E' R]]].
  rewrite E in E'. inversion E'; subst imps' body'. clear E'.
  destruct (R start) as [[s' [w' [X [_ [En [[CB [_ [_ [Gd _]]]] [_ [_ [Hb Hv]]]]]]]]]|[_ NL]]; [|contradiction].
  assert (Bd : r_body script = body) by (rewrite Sh; reflexivity).
  assert (Im : forallb import_parses (r_imports script) = true).
  { apply forallb_forall. intros [md l] I. unfold import_parses. cbn [snd]. apply negb_true_iff. destruct (memb String.eqb "None" l) eqn:M; auto.
    exfalso. apply (NN (mkCls md "None")); [|reflexivity]. exists l. split; auto. cbn [c_name].
    clear - M. induction l as [|a l IH]; [discriminate|]. cbn [memb] in M. apply orb_true_iff in M. destruct M as [M|M]; [apply String.eqb_eq in M; left; auto|right; auto]. }
  assert (Rd : forall nm wr, In (nm, wr) (r_values script) -> value_parses repr_ok wr = true /\ exists y, eval_written call (r_imports script) wr = Ok y).
  { intros [j i|k] wr I.
    - apply Vp in I. destruct I as [n [m [x [_ [T [Ex ->]]]]]]. destruct (RB n m x T Ex) as [y Ry]. destruct (read _ U _ _ Ry). eauto.
    - apply Vf in I. destruct I as [v [n [x [Nv [Ni [Ex ->]]]]]]. destruct (RB n n x) as [y Ry]; auto.
      + eapply takes_free; eauto. eapply nth_error_In; eauto.
      + destruct (read _ U _ _ Ry). eauto. }
  assert (Pv : forallb (fun v => value_parses repr_ok (snd v)) (r_values script) = true) by (apply forallb_forall; intros [nm wr] I; exact (proj1 (Rd nm wr I))).
  unfold RunScriptModel.execute. rewrite Im, Pv. cbn [andb]. unfold run_state. cbn [fst snd]. rewrite Bd, P, X. cbn [bind]. rewrite En. cbn [bind].
  destruct (assign_all (r_imports script) (r_values script) (fun _ => None) NDv) as [e [Ee [He _]]].
  { intros [nm wr] I. exact (proj2 (Rd nm wr I)). }
  rewrite Ee. cbn [bind].
  inversion CB as [d info ps doc name h info' ps' SEP F1 F2 F3 Q1 Q2]. subst w w'. cbn [diagram] in *.
  set (fp := free_ports d) in *. set (us := filter (kept body) fp) in *. set (nb := nonblock_variables d) in *.
  set (w := Wf d info ps doc name) in *. set (w' := Wf (relabel h d) info' ps' (last_doc w) name) in *.
  assert (Fr : forall n p, nth_error fp n = Some p -> nth_error (inputs d) n = Some (snd p)).
  { intros n p N. rewrite (inputs_split d WF), nth_error_app1, nth_error_map by (rewrite map_length; apply nth_error_Some; fold fp; congruence). fold fp. rewrite N. reflexivity. }
  assert (Fv : forall k v, nth_error nb k = Some v -> nth_error (inputs d) (length fp + k) = Some v).
  { intros k v N. rewrite (inputs_split d WF), nth_error_app2, map_length by (rewrite map_length; fold fp; lia). fold fp nb. replace (length fp + k - length fp) with k by lia. exact N. }
  assert (It1 : forall n m x y p, nth_error fp n = Some p -> kept body p = true -> takes w n m -> iv m = Some x -> eval_written call (r_imports script) (process_value x) = Ok y ->
     item s' w' e (port_item p) = Ok (Some n, y)).
  { intros n m x y [[j i] v] N Kp T Ex Ey. assert (I := nth_error_In _ _ N). apply (free_port_In d j i v WF) in I. destruct I as [_ [b [B M]]].
    unfold item, port_item. cbn [fst snd deref]. unfold block_of.
    destruct (Hb j (mkBlock (map h (b_in b)) (map h (b_out b)))) as [q Eq].
    { cbn [relabel blocks]. rewrite nth_error_map, B. reflexivity. }
    rewrite Eq. cbn [b_in b_out bind snd]. rewrite nth_error_map, M. cbn [option_map of_option bind].
    assert (Hx : e (NPort j i) = Some y) by (apply (He (NPort j i, process_value x) y); [apply Vp; exists n, m, x; split; [apply free_port_at; eauto|auto]|exact Ey]).
    unfold port_name. cbn [fst snd]. rewrite Hx.
    cbn [of_option bind diagram w']. rewrite (index_relabel d h n v WF SEP (Fr n (j, i, v) N)). reflexivity. }
  assert (It2 : forall k v x y, nth_error nb k = Some v -> iv (length fp + k) = Some x -> eval_written call (r_imports script) (process_value x) = Ok y ->
     item s' w' e (VName (Sub 0 (NVar k)), NFree k) = Ok (Some (length fp + k), y)).
  { intros k v x y N Ex Ey. unfold item. cbn [fst snd deref].
    rewrite (Hv k (h v)) by (rewrite (nbv_map d WF h SEP), nth_error_map; fold nb; rewrite N; reflexivity). cbn [bind].
    assert (Hx : e (NFree k) = Some y) by (apply (He (NFree k, process_value x) y); [apply Vf; exists v, (length fp + k), x; auto|exact Ey]).
    rewrite Hx.
    cbn [of_option bind diagram w']. rewrite (index_relabel d h _ v WF SEP (Fv k v N)). reflexivity. }
  assert (Its : r_items script = map port_item us ++ map (fun k => (VName (Sub 0 (NVar k)), NFree k)) (seq 0 (length nb))) by (rewrite Sh; reflexivity).
  assert (Val : forall n, n < length (inputs d) -> exists x, iv n = Some x).
  { intros n Hn. assert (V := saved_all w type_of iv script Sd Es n Hn). destruct (iv n) as [x|]; [eauto|congruence]. }
  assert (Lf : length (inputs d) = length fp + length nb) by (rewrite (inputs_split d WF), app_length, map_length; reflexivity).
  assert (Each : forall z, In z (r_items script) -> exists n m x y, takes w n m /\ iv m = Some x /\ read_back repr_ok call (r_imports script) x y
     /\ item s' w' e z = Ok (Some n, y)
     /\ ((exists p, nth_error fp n = Some p /\ z = port_item p) \/ exists k, n = length fp + k /\ z = (VName (Sub 0 (NVar k)), NFree k))).
  { intros z I. rewrite Its in I. apply in_app_iff in I. destruct I as [I|I]; apply in_map_iff in I.
    - destruct I as [[[j i] v] [<- I]]. apply filter_In in I. destruct I as [I Kp]. apply In_nth_error in I. destruct I as [n N].
      set (m := length (filter (kept body) (firstn n fp))).
      assert (T : takes w n m) by (apply (takes_rank w imps body n m j i v Sd E N Kp); reflexivity).
      destruct (Val m) as [x Ex].
      { assert (Cn := filter_count (kept body) (firstn n fp)). rewrite firstn_length in Cn. assert (n < length fp) by (apply nth_error_Some; congruence). fold m in Cn. lia. }
      destruct (RB n m x T Ex) as [y Ry]. exists n, m, x, y. split; [exact T|]. split; [exact Ex|]. split; [exact Ry|]. split; [|left; eauto].
      apply (It1 n m x y _ N Kp T Ex). exact (proj2 (read _ U _ _ Ry)).
    - destruct I as [k [<- I]]. apply in_seq in I. destruct (nth_error nb k) as [v|] eqn:N; [|apply nth_error_None in N; lia].
      assert (T : takes w (length fp + k) (length fp + k)) by (eapply takes_free; [exact (Fv k v N)|eapply nth_error_In; exact N]).
      destruct (Val (length fp + k)) as [x Ex]; [lia|]. destruct (RB _ _ x T Ex) as [y Ry].
      exists (length fp + k), (length fp + k), x, y. split; [exact T|]. split; [exact Ex|]. split; [exact Ry|]. split; [|right; eauto].
      apply (It2 k v x y N Ex). exact (proj2 (read _ U _ _ Ry)). }
  destruct (mapM_in (item s' w' e) (r_items script)) as [given [Eg Ig]].
  { intros z I. destruct (Each z I) as [n [m [x [y [_ [_ [_ [Ez _]]]]]]]]. eauto. }
  rewrite Eg. cbn [bind]. exists w', given. split; [reflexivity|]. split; [exact CB|]. split.
  - apply (mapM_nodup (item s' w' e) (r_items script)); auto.
    + rewrite Its. assert (NDn : NoDup (map snd (map port_item us ++ map (fun k => (VName (Sub 0 (NVar k)), NFree k)) (seq 0 (length nb))))).
      { rewrite map_app, !map_map. cbn [snd]. rewrite Sh in NDv. cbn [r_values] in NDv. rewrite map_app, !map_map in NDv. cbn [fst] in NDv.
        assert (F : forall (l : list (nat * nat * nat)) (m : list (value A)), length l <= length m -> map (fun px => port_name (fst px)) (combine l m) = map (fun p => snd (port_item p)) l).
        { induction l as [|a l IH]; intros [|b m] H; cbn in *; auto; try lia. rewrite IH by lia. reflexivity. }
        assert (F' : forall (l : list nat) (m : list (value A)), length l <= length m -> map (fun kx => NFree (fst kx)) (combine l m) = map (fun k => NFree k) l).
        { induction l as [|a l IH]; intros [|b m] H; cbn in *; auto; try lia. rewrite IH by lia. reflexivity. }
        rewrite F in NDv by (rewrite Lb; unfold us; assert (C := filter_count (kept body) fp); lia).
        rewrite F' in NDv by (rewrite seq_length, Ln; apply le_n). exact NDv. }
      exact (NoDup_map_inv _ _ NDn).
    + intros a b k z z' Ia Ib Fa Fb. destruct (Each a Ia) as [n [m [x [y [_ [_ [_ [Ea Ha]]]]]]]]. destruct (Each b Ib) as [n2 [m2 [x2 [y2 [_ [_ [_ [Eb Hb2]]]]]]]].
      assert (n = n2) by congruence. subst n2.
      destruct Ha as [[p [Np ->]]|[k1 [-> ->]]], Hb2 as [[q [Nq ->]]|[k2 [Q ->]]].
      * congruence.
      * exfalso. assert (n < length fp) by (apply nth_error_Some; congruence). lia.
      * exfalso. assert (length fp + k1 < length fp) by (apply nth_error_Some; congruence). lia.
      * assert (k1 = k2) by lia. congruence.
  - split; [intros i v' Ni; exact (proj1 (Gd i v' Ni))|]. intros k y. rewrite Ig. split.
    + intros [z [I Ez]]. destruct (Each z I) as [n [m [x [y' [T [Ex [Ry [Ez' _]]]]]]]]. rewrite Ez in Ez'. inversion Ez'; subst. exists n, m, x. auto.
    + intros [n [m [x [-> [T [Ex Ry]]]]]]. assert (Ey := proj2 (read _ U _ _ Ry)).
      destruct (takes_inv w imps body n m Sd E T) as [[[[j i] v] [N Kp]]|[k [v [-> N]]]].
      * exists (port_item (j, i, v)). split; [|apply (It1 n m x y _ N Kp T Ex Ey)]. rewrite Its. apply in_app_iff. left. apply in_map. apply filter_In. split; auto.
        eapply nth_error_In; exact N.
      * exists (VName (Sub 0 (NVar k)), NFree k). assert (m = length (free_ports (diagram w)) + k) by (apply (takes_own w _ m k v Sd N eq_refl); exact T). subst m. split.
        -- rewrite Its. apply in_app_iff. right. apply in_map_iff. exists k. split; auto. apply in_seq. assert (k < length nb) by (apply nth_error_Some; unfold nb; cbn [diagram w] in N; congruence). lia.
        -- apply (It2 k v x y N Ex Ey).
Qed.
(** Executing the script of a run builds the workflow again and gives to its method run, for
    each input it writes, the value of the input it takes. *)
Theorem C50_executed (w : wf) type_of iv script : unlocked_params params -> sound w -> save_script type_of iv w = Ok script ->
  (forall a b, imported (r_imports script) a -> imported (r_imports script) b -> c_name a = c_name b -> a = b) ->
  (forall c, In c (uses w) -> imported (r_imports script) c) ->
  (forall c, imported (r_imports script) c -> c_name c <> "None") ->
  locks_kept params text w ->
  (forall n m x, takes w n m -> iv m = Some x -> exists y, read_back repr_ok call (r_imports script) x y) ->
  exists w' given, execute script = Ok (w', given) /\ comes_back params text w w' /\ NoDup (map fst given)
  /\ forall k y, In (k, y) given <-> exists n m x, k = Some n /\ takes w n m /\ iv m = Some x /\ read_back repr_ok call (r_imports script) x y.
Proof.
  intros UP Sd Es U K NN L RB. destruct (executed w type_of iv script UP Sd Es U K NN L RB) as [w' [given [E [C [N [_ G]]]]]]. exists w', given. auto.
Qed.

Lemma takes_unnamed w n m : sound w -> unnamed w -> takes w n m <-> m = n /\ n < length (inputs (diagram w)).
Proof.
  intros S Un. assert (WF : well_formed (diagram w)) by (destruct w; apply S). split.
  - intros T. inversion T as [n' u Nu Iu|n' j i ks Ip Nn ND Kk]; subst.
    + split; auto. apply nth_error_Some. congruence.
    + assert (ks = []) as ->.
      { destruct ks as [|k ks]; auto. destruct (proj1 (Kk k) (or_introl eq_refl)) as [_ [j' [i' [Ip' Nm]]]]. exfalso. exact (Un k j' i' Ip' Nm). }
      split; [simpl; lia|]. destruct Ip as [b [v [N _]]]. apply nth_error_Some. congruence.
  - intros [-> Ln]. destruct (nth_error (inputs (diagram w)) n) as [v|] eqn:N; [|apply nth_error_None in N; lia].
    assert (N' := N). rewrite (inputs_split _ WF) in N'. destruct (le_lt_dec (length (free_ports (diagram w))) n) as [H|H].
    + rewrite nth_error_app2, map_length in N' by (rewrite map_length; exact H). eapply takes_free; eauto. eapply nth_error_In; eauto.
    + rewrite nth_error_app1, nth_error_map in N' by (rewrite map_length; exact H).
      destruct (nth_error (free_ports (diagram w)) n) as [[[j i] u]|] eqn:Np; [|discriminate].
      replace n with (n - length (@nil nat)) at 2 by (simpl; lia).
      assert (Ip : input_port (diagram w) n j i) by (apply free_port_at; eauto).
      apply (takes_port w n j i []); auto; [exact (Un n j i Ip)|constructor|].
      intros k. split; [intros []|]. intros [_ [j' [i' [Ip' Nm]]]]. exact (Un k j' i' Ip' Nm).
Qed.

Lemma start_values (d : workflow) (default : nat -> option (value A)) lock user : well_formed d ->
  (forall v, In v (inputs d) -> lock v = true -> default v <> None) -> NoDup (map fst user) ->
  (forall i x, In (i, x) user -> i < length (inputs d)) ->
  exists start, input_values d default lock user = Ok start
  /\ forall i v x, nth_error (inputs d) i = Some v -> lock v = false -> In (i, x) user -> start i = Some x.
Proof.
  intros WF G ND Lu. set (lock' := fun v => lock v && mem v (inputs d)).
  assert (LS : locks_sound default lock').
  { intros v H. apply andb_true_iff in H. destruct H as [H1 H2]. apply mem_In in H2. auto. }
  assert (EQ : input_values d default lock user = input_values d default lock' user).
  { unfold input_values. f_equal. apply mapM_ext. intros [i x] I. cbn [fst].
    destruct (nth_error (inputs d) i) as [v|] eqn:N; [|reflexivity]. cbn [of_option bind].
    unfold ExecModel.locked, lock'. rewrite (proj2 (mem_In v (inputs d)) (nth_error_In _ _ N)), andb_true_r. reflexivity. }
  rewrite EQ. assert (IV := input_values_spec d WF default lock' LS user ND). destruct (input_values d default lock' user) as [st|e].
  - exists st. split; auto. intros i v x N Lv Ix. rewrite (IV i v N). unfold given_by, lock'. rewrite Lv. cbn [andb].
    destruct (find _ user) as [[i' x']|] eqn:F.
    + apply find_some in F. destruct F as [I' F]. cbn [fst] in F. destruct (nth_error (inputs d) i') as [u|] eqn:Nu; [|discriminate].
      apply Nat.eqb_eq in F. subst u. assert (NI := inputs_nodup d WF). rewrite NoDup_nth_error in NI.
      assert (i' = i) by (apply NI; [apply nth_error_Some; congruence|congruence]). subst i'. cbn [snd]. f_equal.
      clear - ND Ix I'. induction user as [|[a b] user IH]; [destruct Ix|]. cbn [map fst] in ND. inversion ND; subst.
      destruct Ix as [Q|Ix], I' as [Q'|I'].
      * congruence.
      * exfalso. apply H1. apply in_map_iff. exists (i, x'). inversion Q; subst. auto.
      * exfalso. apply H1. apply in_map_iff. exists (i, x). inversion Q'; subst. auto.
      * auto.
    + exfalso. assert (Q := find_none _ _ F (i, x) Ix). cbn [fst] in Q. rewrite N, Nat.eqb_refl in Q. discriminate.
  - exfalso. destruct IV as [_ [i [x [I H]]]]. specialize (Lu i x I). lia.
Qed.

(** The script of a run whose workflow names none of its inputs and whose values can all be
    written in full starts a run of the same workflow from the same values; inputs that the
    constructors of blocks lock keep their default values. *)
Theorem C50_same_start (w : wf) type_of iv script : unlocked_params params -> sound w -> save_script type_of iv w = Ok script ->
  (forall a b, imported (r_imports script) a -> imported (r_imports script) b -> c_name a = c_name b -> a = b) ->
  (forall c, In c (uses w) -> imported (r_imports script) c) ->
  (forall c, imported (r_imports script) c -> c_name c <> "None") ->
  locks_kept params text w -> unnamed w ->
  (forall i x, i < length (inputs (diagram w)) -> iv i = Some x -> full repr_ok x) ->
  exists w' user start, execute script = Ok (w', map (fun ix => (Some (fst ix), snd ix)) user) /\ comes_back params text w w'
  /\ NoDup (map fst user) /\ (forall n x, In (n, x) user <-> n < length (inputs (diagram w)) /\ iv n = Some x)
  /\ input_values (diagram w') (fun v => v_default (info w' v)) (fun v => v_lock (info w' v)) user = Ok start
  /\ forall i v', nth_error (inputs (diagram w')) i = Some v' -> v_lock (info w' v') = false -> start i = iv i.
Proof.
  intros UP Sd Es U K NN L Un Fl. assert (WF : well_formed (diagram w)) by (destruct w; apply Sd).
  assert (RB : forall n m x, takes w n m -> iv m = Some x -> exists y, read_back repr_ok call (r_imports script) x y).
  { intros n m x T Ex. apply (takes_unnamed w n m Sd Un) in T. destruct T as [-> Ln]. exists x. apply rb_full. eauto. }
  destruct (executed w type_of iv script UP Sd Es U K NN L RB) as [w' [given [E [C [N [Gd G]]]]]].
  assert (G' : forall k x, In (k, x) given <-> exists n, k = Some n /\ n < length (inputs (diagram w)) /\ iv n = Some x).
  { intros k x. rewrite G. split.
    - intros [n [m [y [-> [T [Ex Ry]]]]]]. apply (takes_unnamed w n m Sd Un) in T. destruct T as [-> Ln]. exists n. split; auto. split; auto.
      destruct (read _ U _ _ Ry) as [_ R1]. destruct (read _ U _ _ (rb_full repr_ok call _ y (Fl n y Ln Ex))) as [_ R2]. congruence.
    - intros [n [-> [Ln Ex]]]. exists n, n, x. split; auto. split; [apply takes_unnamed; auto|]. split; auto. apply rb_full. eauto. }
  assert (UG : exists user, given = map (fun ix : nat * value A => (Some (fst ix), snd ix)) user).
  { clear - G'. assert (H : forall k x, In (k, x) given -> exists n, k = Some n) by (intros k x I; apply G' in I; destruct I as [n [-> _]]; eauto).
    clear G'. induction given as [|[k x] given IH]; [exists []; reflexivity|]. destruct (H k x (or_introl eq_refl)) as [n ->].
    destruct IH as [user ->]; [intros; eapply H; right; eauto|]. exists ((n, x) :: user). reflexivity. }
  destruct UG as [user ->].
  assert (Iu : forall n x, In (n, x) user <-> n < length (inputs (diagram w)) /\ iv n = Some x).
  { intros n x. split.
    - intros I. destruct (proj1 (G' (Some n) x)) as [n' [Q H]]; [apply in_map_iff; exists (n, x); auto|]. inversion Q; subst. exact H.
    - intros H. assert (I : In (Some n, x) (map (fun ix : nat * value A => (Some (fst ix), snd ix)) user)) by (apply G'; eauto).
      apply in_map_iff in I. destruct I as [[n' x'] [Q I]]. inversion Q; subst. exact I. }
  assert (NDu : NoDup (map fst user)).
  { rewrite map_map in N. cbn [fst] in N. rewrite <- (map_map fst Some) in N. exact (NoDup_map_inv _ _ N). }
  assert (LI : length (inputs (diagram w')) = length (inputs (diagram w)) /\ well_formed (diagram w')).
  { inversion C; subst. cbn [diagram] in *. rewrite (inputs_map d WF h) by assumption. rewrite map_length. split; auto. apply relabel_wf; auto. }
  destruct LI as [LI WF'].
  destruct (start_values (diagram w') (fun v => v_default (info w' v)) (fun v => v_lock (info w' v)) user WF') as [st [Est Hst]]; auto.
  { intros v I. apply In_nth_error in I. destruct I as [i Ni]. exact (Gd i v Ni). }
  { intros i x I. apply Iu in I. lia. }
  exists w', user, st. split; [exact E|]. split; [exact C|]. split; [exact NDu|]. split; [exact Iu|]. split; [exact Est|].
  intros i v' Ni Lv. assert (Li : i < length (inputs (diagram w))) by (rewrite <- LI; apply nth_error_Some; congruence).
  assert (V := saved_all w type_of iv script Sd Es i Li). destruct (iv i) as [x|] eqn:Ex; [|congruence].
  apply (Hst i v' x Ni Lv). apply Iu. auto.
Qed.
End T.

(** Different values are in different variables of the script. *)
Theorem C50_names_distinct a b : render_value a = render_value b -> a = b.
Proof. exact (render_value_inj a b). Qed.

Print Assumptions C50_saved.
Print Assumptions C50_missing_value.
Print Assumptions C50_imports.
Print Assumptions C50_values.
Print Assumptions C50_executed.
Print Assumptions C50_same_start.
Print Assumptions C50_names_distinct.

(** ** Examples and what does not come back *)

(** Values are texts, instances and files; the classes give a new instance of theirs. *)
Definition plain_params (c : cls) (m : string) : list (variable (value string) string) :=
  map (fun x => mkVar (option_map Plain (v_default x)) (v_lock x) (v_label x)) (params_ex c m).
Definition new (file : bool) (c : cls) : res (value string) := Ok (if file then File c "new" else Object c "new").
Definition saved := @save_script string (fun _ => "str").
Definition again (x : rscript) := @execute string (fun _ => true) plain_params Plain new x.
Definition given_to_run (type_of : nat -> ann) (l : list (value string)) (w : @wf (value string)) : res (list (option nat * value string)) :=
  let* s := saved type_of (nth_error l) w in let* r := again s in Ok (snd r).
Definition soundV := sound plain_params Plain.
Definition strings (_ : nat) : ann := ABuiltin.

(** a block that joins two texts; the inputs in [l] are locked on "blue" *)
Definition lockedV (l : list nat) (v : nat) : variable (value string) string :=
  if memb Nat.eqb v l then mkVar (Some (Plain "blue")) true "input" else mkVar None false "input".
Definition join : @part (value string) := Part (KConf (CConcatStrings 2 "-")) "Join" (0, 0)%Z.
Definition joined (l : list nat) : @wf (value string) :=
  Wf (mkWf [mkBlock [0; 1] [2]] [] (Some 2)) (lockedV l) [join] "" "joined".
(** the text joined is joined to a third one *)
Definition three : @wf (value string) :=
  Wf (mkWf [mkBlock [0; 1] [2]; mkBlock [3; 4] [5]] [(2, 3); (6, 0)] (Some 5)) (lockedV []) [join; join] "" "three".
(** the same, as a block of a workflow *)
Definition nested : @wf (value string) :=
  Wf (mkWf [mkBlock [0; 1] [2]; mkBlock [3; 4; 5] [6]] [(2, 4)] (Some 6)) (lockedV [])
     [join; Part (KWorkflow three) "Three" (0, 0)%Z] "" "nested".

Lemma joined_sound l : soundV (joined l).
Proof.
  cbn [joined soundV sound]. split; [|split; [|split; [|split; [|split; [|split]]]]].
  - split; cbn.
    + repeat constructor; cbn; lia.
    + constructor.
    + intros s t [].
    + intros s t b [].
    + intros o E. inversion E; subst. eexists. split; [left; reflexivity|cbn; auto].
  - discriminate.
  - cbn [all2 fits join blocks writable]. repeat match goal with |- _ /\ _ => split end; try quote_tac; try reflexivity; exact I.
  - intros b v _ _ H. unfold lockedV in *. destruct (memb _ _ _); discriminate.
  - quote_tac.
  - quote_tac.
  - cbn. intros v [].
Qed.

Lemma three_sound : soundV three.
Proof.
  cbn [three soundV sound]. split; [|split; [|split; [|split; [|split; [|split]]]]].
  - split; cbn.
    + repeat constructor; cbn; lia.
    + repeat constructor; cbn; lia.
    + intros s t [E|[E|[]]]; inversion E; subst; [exists (mkBlock [3; 4] [5])|exists (mkBlock [0; 1] [2])]; cbn; auto.
    + intros s t b [E|[E|[]]] [<-|[<-|[]]]; inversion E; subst; cbn; lia.
    + intros o E. inversion E; subst. eexists. split; [right; left; reflexivity|cbn; auto].
  - discriminate.
  - cbn [all2 fits join blocks writable]. repeat match goal with |- _ /\ _ => split end; try quote_tac; try reflexivity; exact I.
  - intros b v _ _ H. unfold lockedV in *. destruct (memb _ _ _); discriminate.
  - quote_tac.
  - quote_tac.
  - cbn. intros v [<-|[]]. quote_tac.
Qed.

Lemma nested_sound : soundV nested.
Proof.
  cbn [nested soundV sound]. split; [|split; [|split; [|split; [|split; [|split]]]]].
  - split; cbn.
    + repeat constructor; cbn; lia.
    + repeat constructor; cbn; lia.
    + intros s t [E|[]]; inversion E; subst. exists (mkBlock [3; 4; 5] [6]). cbn. auto.
    + intros s t b [E|[]] [<-|[<-|[]]]; inversion E; subst; cbn; lia.
    + intros o E. inversion E; subst. eexists. split; [right; left; reflexivity|cbn; auto].
  - discriminate.
  - cbn [all2 blocks]. split; [|split; [|exact I]].
    + cbn [fits join writable]. repeat match goal with |- _ /\ _ => split end; try quote_tac; reflexivity.
    + cbn [fits]. split; [quote_tac|]. split; [exact three_sound|]. vm_compute. auto.
  - intros b v _ _ H. unfold lockedV in *. destruct (memb _ _ _); discriminate.
  - quote_tac.
  - quote_tac.
  - cbn. intros v [].
Qed.

(** A run of [three] is started again with its values. *)
Example C50_three : given_to_run strings [Plain "b"; Plain "c"; Plain "a"] three = Ok [(Some 0, Plain "b"); (Some 1, Plain "c"); (Some 2, Plain "a")].
Proof. vm_compute. reflexivity. Qed.
Example C50_three_values :
  match saved strings (nth_error [Plain "b"; Plain "c"; Plain "a"]) three with
  | Ok s => map (fun x => render_value (fst x)) (r_values s) = ["value_0_1"; "value_1_1"; "value_0"]
  | Err _ => False
  end.
Proof. vm_compute. reflexivity. Qed.
Example C50_three_unnamed : unnamed three.
Proof.
  intros n j i [b [v [N [B M]]]] Nm. inversion Nm as [w j' i' b' v' B' M' H|w w' nm p j' i' I|w w' bn bp k nm p j' i' I]; subst.
  - assert (b' = b) by congruence. subst b'. assert (v' = v) by congruence. subst v'. destruct H as [H|[s H]]; [discriminate|].
    apply nth_error_In in N. vm_compute in N. cbn in H. destruct H as [H|[H|[]]]; inversion H; subst; repeat (destruct N as [N|N]; [discriminate N|]); exact N.
  - cbn in I. destruct I as [I|[I|[]]]; discriminate.
  - cbn in I. destruct I as [I|[I|[]]]; discriminate.
Qed.

(** A locked input shifts the values: the second input gets the value of the first one. *)
Theorem C50_locked_refuted : exists w, soundV w /\ length (inputs (diagram w)) = 2
  /\ given_to_run strings [Plain "blue"; Plain "sky"] w = Ok [(Some 1, Plain "blue")].
Proof. exists (joined [0]). split; [apply joined_sound|]. split; vm_compute; reflexivity. Qed.

(** So does an input of a block of a nested workflow, that has the same name but for a
    prefix: here the one of block 1 at the end of a pipe hides the input at rank 2. *)
Theorem C50_nested_refuted : exists w, soundV w /\ length (inputs (diagram w)) = 4
  /\ (forall v, v_lock (info w v) = false)
  /\ given_to_run strings [Plain "a"; Plain "b"; Plain "c"; Plain "d"] w = Ok [(Some 1, Plain "a"); (Some 3, Plain "b")].
Proof. exists nested. split; [apply nested_sound|]. split; [vm_compute; reflexivity|]. split; [reflexivity|vm_compute; reflexivity]. Qed.

(** Instances are not written, tuples of them become lists, and so does the empty tuple. *)
Theorem C50_instances_refuted : exists w type_of c, soundV w /\
  given_to_run type_of [Object c "mine"; Items true [Object c "one"; Object c "two"]] w
    = Ok [(Some 0, Object c "new"); (Some 1, Items false [Object c "new"; Object c "new"])]
  /\ given_to_run type_of [Plain "a"; Items true []] w = Ok [(Some 0, Plain "a"); (Some 1, Items false [])].
Proof.
  exists (joined []), (fun v => match v with 0 => AClass car | _ => AAlias (Some "Tuple") [AClass car] end), car.
  split; [apply joined_sound|]. split; vm_compute; reflexivity.
Qed.

(** An input without type: the script cannot be saved. *)
Theorem C50_untyped_refuted : exists w, soundV w
  /\ saved (fun _ => AUntyped) (nth_error [Plain "a"; Plain "b"]) w = Err AttributeError.
Proof. exists (joined []). split; [apply joined_sound|vm_compute; reflexivity]. Qed.

(** An input of type InstanceOf[Car]: the script imports None, which no python reads. *)
Theorem C50_instance_of_refuted : exists w, soundV w
  /\ given_to_run (fun _ => AAlias None [AClass car]) [Object car "a"; Object car "b"] w = Err SyntaxError.
Proof. exists (joined []). split; [apply joined_sound|vm_compute; reflexivity]. Qed.

(** A value whose class is not the one of the type, say a subclass, is not imported. *)
Theorem C50_subclass_refuted : exists w c, soundV w
  /\ given_to_run (fun _ => AClass car) [Object car "a"; Object c "b"] w = Err NameError.
Proof. exists (joined []), (mkCls "cars" "Van"). split; [apply joined_sound|vm_compute; reflexivity]. Qed.

(** A value that repr does not write as an expression, as a list that holds an instance and
    a text. *)
Theorem C50_repr_refuted : exists w, soundV w
  /\ given_to_run strings [Plain "a"; Items false [Object car "b"; Plain "c"]] w = Err SyntaxError.
Proof. exists (joined []). split; [apply joined_sound|vm_compute; reflexivity]. Qed.

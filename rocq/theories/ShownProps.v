(** Property C62: the displays of a workflow run and the paths they refer to. *)
From Coq Require Import String Ascii Bool Arith ZArith DecimalString DecimalNat Lia Permutation List.
From Verif Require Import Base BaseProofs PyValue PathsModel PathsSpec PathsProofs ExecModel ExecSpec ExecStruct ExecRuntime ExecProofs ExecRun
  ExecSim BranchModel BranchSpec BranchProofs BranchEval BranchShow BranchRun ShownModel ShownProofs.
Import ListNotations.
Local Open Scope string_scope.

Section C62.
Variable w : workflow.
Variable display_of : nat -> option display_block.
Variable default : nat -> option val.
Variable lock_flag : nat -> bool.
Variable type_ok : nat -> val -> bool.
Variable evaluate : nat -> list val -> res (list val).
Variable set_order : nat -> list nat -> list nat.
Variable exports : list nat.
Variable call : string -> res val.
Variable serialize : val -> res val.
Variable int_of : string -> option Z.
Variable isdigit : string -> bool.
Variable generic : list string -> res val.
Variable fuel : nat.

Notation displays := (displays w display_of).
Notation block_selector := (block_selector display_of).
Notation run := (run w default lock_flag type_ok evaluate set_order).
Notation to_workflow_run := (to_workflow_run w default lock_flag type_ok set_order displays exports).
Notation block_display := (block_display w default lock_flag type_ok evaluate set_order displays block_selector).
Notation display_from_selector := (display_from_selector w display_of default lock_flag type_ok evaluate set_order call serialize).
Notation run_settings := (run_settings w display_of).
Notation state_settings := (state_settings w display_of).
Notation get_from_path := (get_from_path w int_of isdigit generic fuel).
Notation given_by := (given_by w default lock_flag).

(** Block [b] is a display block of the workflow, [v] is its first input. *)
Definition shows (b : nat) (d : display_block) (v : nat) : Prop :=
  display_of b = Some d /\ exists bl ins, nth_error (blocks w) b = Some bl /\ b_in bl = v :: ins.

(** When all display blocks have a view and are fed, the settings of a run are the
    documentation, loaded when no block is, then those of the display blocks in their order,
    each with the pipe that feeds the block as reference path. *)
Theorem C62_settings :
  well_formed w ->
  forall ds : list (nat * display_block * string * nat * nat * nat),
  displays = map (fun x => let '(b, d, name, p, src, v) := x in b) ds ->
  (forall b d name p src v, In (b, d, name, p, src, v) ds ->
     shows b d v /\ chosen d = ViewType name /\ nth_error (pipes w) p = Some (src, v)) ->
  run_settings = Ok
    ({| s_selector := "Documentation"; s_type := "markdown"; s_method := "to_markdown"; s_block := None; s_path := "#";
        s_serialize := false; s_load := forallb (fun x => let '(b, d, name, p, src, v) := x in negb (load_flag d)) ds |}
     :: map (fun x => let '(b, d, name, p, src, v) := x in
        {| s_selector := name; s_type := block_type d; s_method := "block_display"; s_block := Some b;
           s_path := "#/values/" ++ dec p; s_serialize := serialize_flag d; s_load := load_flag d |}) ds).
Proof.
  intros WF ds ED H. unfold ShownModel.run_settings. rewrite settings_mapM, ED. clear ED.
  assert (E : mapM (one w display_of) (map (fun x : nat * display_block * string * nat * nat * nat => let '(b, d, name, p, src, v) := x in b) ds)
    = Ok (map (fun x : nat * display_block * string * nat * nat * nat => let '(b, d, name, p, src, v) := x in setting_of b d name p) ds)).
  { induction ds as [|[[[[[b d] name] p] src] v] ds IH]; auto. cbn [map mapM].
    destruct (H b d name p src v (or_introl eq_refl)) as [[D [bl [ins [N Bi]]]] [C P]].
    rewrite (one_ok w WF display_of b bl d v ins src p name N D Bi P C). cbn [bind].
    rewrite IH; [reflexivity|]. intros. apply H. right. auto. }
  rewrite E. cbn [bind]. f_equal. f_equal. f_equal.
  clear. induction ds as [|[[[[[b d] name] p] src] v] ds IH]; auto. cbn [map existsb forallb]. rewrite negb_orb, IH. reflexivity.
Qed.

(** One display block that is not fed, or without a view (a deprecated one), is enough for
    the run to have no display at all, not even its documentation. *)
Theorem C62_one_bad_block_refuted :
  well_formed w ->
  forall before b after d v, displays = (before ++ b :: after)%list ->
  (forall c, In c before -> exists d' v' name, shows c d' v' /\ chosen d' = ViewType name /\ In v' (map snd (pipes w))) ->
  shows b d v ->
  (~ In v (map snd (pipes w)) -> run_settings = Err ValueError /\ forall s sel, display_from_selector s sel = Err ValueError)
  /\ (In v (map snd (pipes w)) -> (forall name, chosen d <> ViewType name) ->
      run_settings = Err AttributeError /\ forall s sel, display_from_selector s sel = Err AttributeError).
Proof.
  intros WF before b after d v ED HB [D [bl [ins [N Bi]]]].
  assert (Q : forall e, one w display_of b = Err e -> run_settings = Err e /\ forall s sel, display_from_selector s sel = Err e).
  { intros e E. assert (R : run_settings = Err e).
    { unfold ShownModel.run_settings. rewrite settings_mapM, ED.
      assert (M : mapM (one w display_of) (before ++ b :: after)%list = Err e); [|rewrite M; reflexivity]. clear ED.
      induction before as [|c before IH].
      - cbn [app mapM]. rewrite E. reflexivity.
      - cbn [app mapM]. destruct (HB c (or_introl eq_refl)) as [d' [v' [name [[D' [bl' [ins' [N' Bi']]]] [C' P']]]]].
        apply in_map_iff in P'. destruct P' as [[src t] [Et P']]. simpl in Et. subst t. apply In_nth_error in P'. destruct P' as [p P'].
        rewrite (one_ok w WF display_of c bl' d' v' ins' src p name N' D' Bi' P' C'). cbn [bind].
        rewrite IH; auto. intros; apply HB; right; auto. }
    split; auto. intros s sel. unfold ShownModel.display_from_selector. rewrite R. reflexivity. }
  split.
  - intros P. apply Q. eapply one_unpiped; eauto.
  - intros P C. apply Q. eapply one_legacy; eauto.
Qed.

(** The settings of a state that is not a run are its own then those of the display blocks, as
    for a run; but its displays can never be computed. *)
Theorem C62_state_refuted : forall A,
  (forall documentation l, run_settings = Ok (documentation :: l) ->
     state_settings = Ok ({| s_selector := "workflow_state"; s_type := "workflow_state"; s_method := "state_display"; s_block := None;
                             s_path := "#"; s_serialize := false; s_load := false |} :: l) /\
     state_displays w display_of = (Err TypeError : res (list A))) /\
  (forall e, run_settings = Err e -> state_settings = Err e /\ state_displays w display_of = (Err e : res (list A))).
Proof.
  intros A. unfold state_displays, ShownModel.state_settings, ShownModel.run_settings.
  destruct (blocks_display_settings w display_of); cbn [bind]; split; intros; try discriminate.
  - injection H as <- <-. auto.
  - injection H as <-. auto.
Qed.

Hypothesis WF : well_formed w.
Hypothesis LS : locks_sound default lock_flag.
Hypothesis SO : forall b l, Permutation (set_order b l) l.
Variable o : nat.
Hypothesis OUT : output w = Some o.
Hypothesis VE : forall c, In c exports -> c < List.length (blocks w).
(** int and isdigit on decimal notation *)
Hypothesis DI : forall n, int_of (dec n) = Some (Z.of_nat n).
Hypothesis DD : forall n, isdigit (dec n) = true.

Let VD : forall c, In c displays -> c < List.length (blocks w).
Proof. intros c I. apply (displays_In w display_of) in I. tauto. Qed.

(** What a run has computed: the values of its inputs and of what the blocks needed by its
    output give. *)
Definition available (src : nat) : Prop :=
  is_input w src \/ exists n bn, needed w n /\ nth_error (blocks w) n = Some bn /\ In src (b_out bn).

(** In a run the reference path of a display leads to the value in the data flow of what
    feeds the block, whenever the output of the workflow needed it to be computed; otherwise
    the path leads nowhere. *)
Theorem C62_path :
  forall user s r, NoDup (map fst user) -> run user = Ok s -> to_workflow_run s = Ok r ->
  forall b d v p src, shows b d v -> nth_error (pipes w) p = Some (src, v) ->
  (forall x, get_from_path r ("#/values/" ++ dec p) = Ok x <-> available src /\ has_value w (given_by user) evaluate src x)
  /\ ((forall x, ~ (available src /\ has_value w (given_by user) evaluate src x)) ->
      get_from_path r ("#/values/" ++ dec p) = Err KeyError).
Proof.
  intros user s r ND R E b d v p src [D [bl [ins [N Bi]]]] P.
  assert (L : p < List.length (pipes w)) by (apply nth_error_Some; congruence).
  rewrite (path_value w int_of isdigit generic fuel DI DD r p L).
  assert (Ib : In b displays) by (apply (displays_In w display_of); split; [apply nth_error_Some; congruence|congruence]).
  pose proof (run_pipe w WF default lock_flag LS type_ok evaluate set_order SO o OUT displays exports VD VE user s r ND R E b bl v ins p src Ib N Bi P) as H.
  split.
  - intros x. rewrite <- (H x). destruct (s_pipe r p); simpl; split; congruence.
  - intros NX. destruct (s_pipe r p) as [x|] eqn:Sp; auto. exfalso. apply (NX x). apply H. auto.
Qed.

(** A path left dangling: a display fed by a block that the output does not need. *)
Corollary C62_dangling_refuted :
  forall user s r, NoDup (map fst user) -> run user = Ok s -> to_workflow_run s = Ok r ->
  forall b d v p src n bn, shows b d v -> nth_error (pipes w) p = Some (src, v) ->
  nth_error (blocks w) n = Some bn -> In src (b_out bn) -> ~ needed w n ->
  get_from_path r ("#/values/" ++ dec p) = Err KeyError.
Proof.
  intros user s r ND R E b d v p src n bn Sh P N J Nn.
  apply (proj2 (C62_path user s r ND R E b d v p src Sh P)). intros x [[I|[m [bm [Nm [N' J']]]]] _].
  - apply (inputs_In w WF) in I. eapply (input_not_out w WF); eauto.
  - assert (m = n) by (eapply (ports_nth w WF) with (v := src); eauto; apply in_or_app; auto). congruence.
Qed.

(** Once the block has been displayed its reference path leads to the value it was shown,
    in any case; and what is shown is the first result of the block in the data flow. *)
Theorem C62_after_display :
  forall user s r, NoDup (map fst user) -> run user = Ok s -> to_workflow_run s = Ok r ->
  forall b d v p src y r', shows b d v -> nth_error (pipes w) p = Some (src, v) -> block_display b r = Ok (y, r') ->
  exists x xs ys bl, nth_error (blocks w) b = Some bl /\ get_from_path r' ("#/values/" ++ dec p) = Ok x
    /\ has_value w (given_by user) evaluate src x
    /\ have_values w (given_by user) evaluate (b_in bl) (x :: xs) /\ evaluate b (x :: xs) = Ok ys /\ nth_error ys 0 = Some y.
Proof.
  intros user s r ND R E b d v p src y r' [D [bl [ins [N Bi]]]] P B.
  assert (L : p < List.length (pipes w)) by (apply nth_error_Some; congruence).
  assert (Ib : In b displays) by (apply (displays_In w display_of); split; [apply nth_error_Some; congruence|congruence]).
  destruct (display_pipe w WF default lock_flag LS type_ok evaluate set_order SO o OUT block_selector displays exports VD VE user s r ND R E b bl v ins p src y r'
              Ib N Bi P B) as [x [Sx HX]].
  destruct (display_result w WF default lock_flag LS type_ok evaluate set_order SO o OUT block_selector displays exports VD VE user s r ND R E b y r' B)
    as [_ [ys [[bl' [xs [N' [HXS Ev]]]] Y]]].
  rewrite N in N'. inversion N'; subst bl'. assert (HXS' := HXS). rewrite Bi in HXS. inversion HXS as [|? x' ? xs' HV HVs]; subst.
  assert (x' = x).
  { eapply (hv_functional w WF evaluate); [exact HV|]. eapply hv_pipe; [eapply nth_error_In; exact P|exact HX]. }
  subst x'. exists x, xs', ys, bl. split; auto. split; [|auto].
  rewrite (path_value w int_of isdigit generic fuel DI DD r' p L), Sx. reflexivity.
Qed.

(** A display of a run found by its selector, the selector being that of one block only. *)
Theorem C62_display :
  forall l, run_settings = Ok l ->
  forall r b d v p src name, shows b d v -> nth_error (pipes w) p = Some (src, v) -> chosen d = ViewType name ->
  name <> "Documentation" -> (forall c, In c displays -> block_selector c = name -> c = b) ->
  display_from_selector r name =
    (let* data := match block_display b r with
                  | Ok (y, _) => if serialize_flag d then serialize y else Ok y
                  | Err _ => if serialize_flag d then serialize VNone else Ok VNone
                  end in
     Ok {| d_type := block_type d; d_data := data; d_path := "#/values/" ++ dec p;
           d_traceback := match block_display b r with Ok _ => None | Err e => Some e end |}).
Proof.
  intros l RS r b d v p src name [D [bl [ins [N Bi]]]] P C ND U. unfold ShownModel.display_from_selector. rewrite RS. cbn [bind].
  unfold ShownModel.run_settings in RS. rewrite settings_mapM in RS.
  destruct (mapM (one w display_of) displays) as [l'|] eqn:E; cbn [bind] in RS; [|discriminate]. inversion RS; subst l. clear RS.
  cbn [List.find s_selector]. assert (String.eqb "Documentation" name = false) as -> by (apply String.eqb_neq; auto).
  assert (F : List.find (fun st => String.eqb (s_selector st) name) l' = Some (setting_of b d name p)).
  { assert (Ib : In b displays) by (apply (displays_In w display_of); split; [apply nth_error_Some; congruence|congruence]).
    pose proof (one_ok w WF display_of b bl d v ins src p name N D Bi P C) as Eb.
    assert (U' : forall c s, In c displays -> one w display_of c = Ok s -> s_selector s = name -> c = b).
    { intros c s Ic Ec Es. apply U; auto. rewrite <- Es. symmetry. eapply one_selector; eauto. }
    clear U VD. revert l' E Ib U'. induction displays as [|c cs IH]; intros l' E Ib U'; [destruct Ib|].
    cbn [mapM] in E. destruct (one w display_of c) as [st|] eqn:Ec; cbn [bind] in E; [|discriminate].
    destruct (mapM (one w display_of) cs) as [sts|] eqn:Es; cbn [bind] in E; [|discriminate]. inversion E; subst. cbn [List.find].
    destruct (String.eqb_spec (s_selector st) name) as [Q|Q].
    - assert (c = b) by (eapply (U' c st); simpl; auto). subst c. congruence.
    - apply IH; auto.
      + destruct Ib as [->|Ib]; auto. exfalso. rewrite Ec in Eb. inversion Eb; subst. apply Q. reflexivity.
      + intros c0 s0 I0. apply U'. right. auto. }
  rewrite F. cbn [of_option bind setting_of s_block s_serialize s_type s_path].
  destruct (block_display b r) as [[y r']|e]; cbn [bind fst]; reflexivity.
Qed.

(** A view named as the documentation is never shown. *)
Theorem C62_documentation_refuted :
  forall l r v, run_settings = Ok l -> call "to_markdown" = Ok v ->
  display_from_selector r "Documentation" = Ok {| d_type := "markdown"; d_data := v; d_path := "#"; d_traceback := None |}.
Proof.
  intros l r v RS C. unfold ShownModel.display_from_selector. rewrite RS. cbn [bind].
  unfold ShownModel.run_settings in RS. destruct (blocks_display_settings w display_of) as [l'|]; cbn [bind] in RS; [|discriminate].
  inversion RS; subst. cbn [List.find s_selector of_option bind s_block s_method]. rewrite String.eqb_refl. cbn [of_option bind s_block s_method].
  rewrite C. reflexivity.
Qed.

(** Two display blocks with one selector: when the first does not lead to the last, what is
    displayed for their selector is the failure of the first. *)
Theorem C62_same_selector_refuted :
  forall user s r, NoDup (map fst user) -> run user = Ok s -> to_workflow_run s = Ok r ->
  forall l, run_settings = Ok l ->
  forall before b middle c after d v name, displays = (before ++ b :: middle ++ c :: after)%list ->
  name <> "Documentation" -> shows b d v -> chosen d = ViewType name -> block_selector c = name ->
  (forall e, In e before \/ In e after -> block_selector e <> name) -> ~ leads_to w c b ->
  forall dis, display_from_selector r name = Ok dis -> d_type dis = block_type d /\ d_traceback dis <> None.
Proof.
  intros user s r ND R E l RS before b middle c after d v name ED NDoc [D [bl [ins [N Bi]]]] C Sc NS NL dis.
  assert (FB : forall y r', block_display b r <> Ok (y, r')).
  { intros y r' B.
    destruct (display_result w WF default lock_flag LS type_ok evaluate set_order SO o OUT block_selector displays exports VD VE user s r ND R E b y r' B)
      as [[c' [Lc Lb]] _].
    assert (Sb : block_selector b = name) by (unfold ShownModel.block_selector; rewrite D, C; reflexivity).
    assert (c' = c).
    { eapply (last_with_unique block_selector); [exact Lc|]. exists (before ++ b :: middle)%list, after.
      split; [rewrite ED, <- app_assoc; reflexivity|]. split; [congruence|]. intros e Ie. rewrite Sb. apply NS. auto. }
    subst. contradiction. }
  unfold ShownModel.display_from_selector. rewrite RS. cbn [bind].
  unfold ShownModel.run_settings in RS. rewrite settings_mapM, ED in RS.
  destruct (mapM (one w display_of) (before ++ b :: middle ++ c :: after)%list) as [l'|] eqn:EM; cbn [bind] in RS; [|discriminate].
  inversion RS; subst l. clear RS.
  cbn [List.find s_selector]. assert (String.eqb "Documentation" name = false) as -> by (apply String.eqb_neq; auto).
  assert (SEL := one_selector w display_of).
  assert (F : exists st, List.find (fun st => String.eqb (s_selector st) name) l' = Some st /\ one w display_of b = Ok st).
  { clear ED. revert l' EM. induction before as [|x before IH]; intros l' EM.
    - cbn [app mapM] in EM. destruct (one w display_of b) as [st|] eqn:Eb; cbn [bind] in EM; [|discriminate].
      destruct (mapM _ _) as [sts|] eqn:Es; cbn [bind] in EM; [|discriminate]. injection EM as <-. exists st. split; auto.
      cbn [List.find]. rewrite (SEL b st Eb). unfold ShownModel.block_selector. rewrite D, C, String.eqb_refl. reflexivity.
    - cbn [app mapM] in EM. destruct (one w display_of x) as [st|] eqn:Eb; cbn [bind] in EM; [|discriminate].
      destruct (mapM _ _) as [sts|] eqn:Es; cbn [bind] in EM; [|discriminate]. injection EM as <-.
      cbn [List.find]. assert (String.eqb (s_selector st) name = false) as ->.
      { apply String.eqb_neq. rewrite (SEL x st Eb). apply NS. left. left. auto. }
      apply IH; auto. intros e0 [I|I]; apply NS; [left; right; auto|auto]. }
  destruct F as [st [F Eb]]. rewrite F. cbn [of_option bind].
  assert (Q : s_block st = Some b /\ s_type st = block_type d).
  { unfold one in Eb. rewrite N, D in Eb. cbn [of_option bind] in Eb. destruct (reference_path w bl); cbn [bind] in Eb; [|discriminate].
    unfold block_settings in Eb. rewrite C in Eb. cbn [bind] in Eb. inversion Eb. auto. }
  destruct Q as [-> ->]. destruct (block_display b r) as [[y r']|e] eqn:B; [exfalso; eapply FB; eauto|]. cbn [bind].
  destruct (if s_serialize st then serialize VNone else Ok VNone); cbn [bind]; [|discriminate].
  intros Q. inversion Q; subst. simpl. split; auto. discriminate.
Qed.

(** Each sample of a plot of several objects refers to the object it shows. *)
Theorem C62_samples :
  fuel <> 0 ->
  forall (r : state val) p v objects attributes samples samples2d axes,
  p < List.length (pipes w) -> get_from_path r ("#/values/" ++ dec p) = Ok v -> v = VList objects \/ v = VTuple objects ->
  multiplot int_of isdigit fuel attributes ("#/values/" ++ dec p) objects = Ok (samples, samples2d, axes) ->
  List.length samples = List.length objects /\ List.length samples2d = List.length objects
  /\ (exists rest, attributes = fst axes :: snd axes :: rest)
  /\ forall i sa sb, nth_error samples i = Some sa -> nth_error samples2d i = Some sb ->
     exists x, nth_error objects i = Some x /\ get_from_path r (sample_path sa) = Ok x /\ sample_path sb = sample_path sa
     /\ sample_name sa = "Sample " ++ dec i /\ sample_name sb = sample_name sa
     /\ (forall a u, In (a, u) (values sa) -> get_in_object_from_path int_of isdigit fuel x a true = Ok u)
     /\ (forall a, In a (map fst (values sa)) <-> In a attributes)
     /\ (forall a u, In (a, u) (values sb) -> get_in_object_from_path int_of isdigit fuel x a true = Ok u)
     /\ (forall a, In a (map fst (values sb)) <-> a = fst axes \/ a = snd axes).
Proof.
  intros F r p v objects attributes samples samples2d axes L GV EV M.
  unfold multiplot in M.
  destruct (samples_of int_of isdigit fuel attributes ("#/values/" ++ dec p) objects) as [sa|] eqn:E1; cbn [bind] in M; [|discriminate].
  destruct (samples_of int_of isdigit fuel (firstn 2 attributes) ("#/values/" ++ dec p) objects) as [sb|] eqn:E2; cbn [bind] in M; [|discriminate].
  destruct attributes as [|x [|y rest]]; cbn [nth_error of_option bind] in M; try discriminate. inversion M; subst. clear M.
  assert (Q : forall l k attrs res, mapM (fun io => sample_of int_of isdigit fuel attrs ("#/values/" ++ dec p) (fst io) (snd io))
      (combine (seq k (List.length l)) l) = Ok res ->
      List.length res = List.length l /\ forall i s, nth_error res i = Some s ->
      exists ob, nth_error l i = Some ob /\ sample_path s = ("#/values/" ++ dec p) ++ "/" ++ dec (k + i) /\ sample_name s = "Sample " ++ dec (k + i)
      /\ (forall a u, In (a, u) (values s) -> get_in_object_from_path int_of isdigit fuel ob a true = Ok u)
      /\ (forall a, In a (map fst (values s)) <-> In a attrs)).
  { induction l as [|ob l IH]; intros k attrs rs ER; cbn [List.length seq combine mapM] in ER.
    - inversion ER; subst. split; auto. intros [|i] s H; discriminate.
    - cbn [fst snd] in ER. unfold sample_of at 1 in ER.
      destruct (mapM (fun a => let* v := get_in_object_from_path int_of isdigit fuel ob a true in Ok (a, v)) (dedup String.eqb [] attrs)) as [vs|] eqn:EV1;
        cbn [bind] in ER; [|discriminate].
      destruct (mapM _ (combine (seq (S k) (List.length l)) l)) as [rs'|] eqn:ER'; cbn [bind] in ER; [|discriminate].
      inversion ER; subst. destruct (IH (S k) attrs rs' ER') as [Ln Hi]. split; [simpl; congruence|].
      intros [|i] s H; cbn [nth_error] in H.
      + inversion H; subst. exists ob. split; auto. rewrite Nat.add_0_r. split; auto. split; auto. cbn [values].
        assert (VS : forall l0 vs0, mapM (fun a => let* v := get_in_object_from_path int_of isdigit fuel ob a true in Ok (a, v)) l0 = Ok vs0 ->
          map fst vs0 = l0 /\ forall a u, In (a, u) vs0 -> get_in_object_from_path int_of isdigit fuel ob a true = Ok u).
        { clear. induction l0 as [|a l0 IH]; intros vs0 E; cbn [mapM] in E; [inversion E; subst; split; auto; intros ? ? []|].
          destruct (get_in_object_from_path int_of isdigit fuel ob a true) as [u|] eqn:Eu; cbn [bind] in E; [|discriminate].
          destruct (mapM _ l0) as [vs1|] eqn:E1; cbn [bind] in E; [|discriminate]. inversion E; subst.
          destruct (IH vs1 eq_refl) as [A B]. split; [simpl; congruence|]. intros a' u' [Q|Q]; [inversion Q; subst; auto|eauto]. }
        destruct (VS _ _ EV1) as [A B]. split; auto. intros a. rewrite A.
        rewrite (dedup_In String.eqb String.eqb_eq). simpl. tauto.
      + destruct (Hi i s H) as [ob' H']. exists ob'. rewrite Nat.add_succ_r. exact H'. }
  destruct (Q objects 0 _ _ E1) as [L1 H1]. destruct (Q objects 0 _ _ E2) as [L2 H2]. clear Q.
  split; auto. split; auto. split; [eauto|]. intros i sa sb Na Nb.
  destruct (H1 i sa Na) as [ob [Nob [Pa [Ta [Va Ka]]]]]. destruct (H2 i sb Nb) as [ob' [Nob' [Pb [Tb [Vb Kb]]]]].
  rewrite Nob in Nob'. inversion Nob'; subst ob'. exists ob. split; auto. cbn [Nat.add] in Pa, Pb, Ta, Tb.
  assert (PA : ("#/values/" ++ dec p) ++ "/" ++ dec i = "#/values/" ++ dec p ++ "/" ++ dec i).
  { generalize ("/" ++ dec i). intros t. cbn. do 9 f_equal. }
  split; [|split; [congruence|split; [auto|split; [congruence|split; [auto|split; [auto|split; [auto|]]]]]]].
  - rewrite Pa, PA. rewrite (path_element w int_of isdigit generic fuel DI DD r p i L).
    rewrite (path_value w int_of isdigit generic fuel DI DD r p L) in GV. destruct (s_pipe r p) as [v'|]; [|discriminate].
    simpl in GV. inversion GV; subst v'. eapply (element_of int_of isdigit fuel DI); eauto.
  - intros a. rewrite Kb. simpl. intuition.
Qed.

(** A path below a value of a pipe is followed in this value. *)
Theorem C62_below :
  forall (r : state val) p, p < List.length (pipes w) ->
  (forall v path, get_from_path r ("#/values/" ++ dec p) = Ok v ->
     get_from_path r ("#/values/" ++ dec p ++ "/" ++ path) = get_in_object_from_path int_of isdigit fuel v ("#/" ++ path) true) /\
  (forall e path, get_from_path r ("#/values/" ++ dec p) = Err e ->
     get_from_path r ("#/values/" ++ dec p ++ "/" ++ path) = Err e).
Proof.
  intros r p L. rewrite (path_value w int_of isdigit generic fuel DI DD r p L).
  split; intros x path H; rewrite (path_below w int_of isdigit generic fuel DI DD r p path L);
    destruct (s_pipe r p); cbn in H; congruence.
Qed.

(** A plot of several objects needs at least two attributes. *)
Theorem C62_two_attributes_refuted :
  forall attributes path objects, List.length attributes < 2 ->
  exists e, multiplot int_of isdigit fuel attributes path objects = Err e.
Proof.
  intros attributes path objects L. unfold multiplot.
  destruct (samples_of int_of isdigit fuel attributes path objects); cbn [bind]; [|eauto].
  destruct (samples_of int_of isdigit fuel (firstn 2 attributes) path objects); cbn [bind]; [|eauto].
  destruct attributes as [|x [|y l]]; cbn [nth_error of_option bind]; eauto. simpl in L. lia.
Qed.
End C62.

(** A TypeError of the method itself is taken for a missing argument: the method is called
    again without its reference path. *)
Theorem C62_called_twice : forall method path,
  (method path = Err TypeError -> display_evaluate method path = ([path; None], method None))
  /\ (method path <> Err TypeError -> display_evaluate method path = ([path], method path)).
Proof.
  intros method path. unfold display_evaluate. destruct (method path) as [v|[]]; split; intros H; auto; try discriminate; congruence.
Qed.
Print Assumptions C62_settings.
Print Assumptions C62_path.
Print Assumptions C62_after_display.
Print Assumptions C62_samples.
Print Assumptions C62_below.
Print Assumptions C62_display.
Print Assumptions C62_same_selector_refuted.

(** ** Examples *)
Definition undec (s : string) : option Z := option_map (fun u => Z.of_nat (Nat.of_uint u)) (NilZero.uint_of_string s).
Definition digits (s : string) : bool := match undec s with Some _ => true | None => false end.
Lemma to_uint_nonnil n : Nat.to_uint n <> Decimal.Nil.
Proof.
  intros E. pose proof (DecimalNat.Unsigned.of_to n) as H. rewrite E in H. simpl in H. subst n. discriminate.
Qed.
Lemma undec_dec n : undec (dec n) = Some (Z.of_nat n).
Proof. unfold undec, dec. rewrite NilZero.usu by apply to_uint_nonnil. simpl. rewrite DecimalNat.Unsigned.of_to. reflexivity. Qed.
Lemma digits_dec n : digits (dec n) = true.
Proof. unfold digits. rewrite undec_dec. reflexivity. Qed.

(** Block 0 gives two cars, plotted by block 1; block 2 counts them, block 3 shows the count. *)
Definition car (n : string) (z : Z) : val := VObj "m.Car" [(KStr "name", VStr n); (KStr "mass", VInt z); (KStr "price", VInt (z + 1))].
Definition cars := VList [car "a" 10; car "b" 20].
Definition wf (out : nat) : workflow :=
  {| blocks := [mkBlock [0] [1]; mkBlock [2] [3]; mkBlock [4] [5]; mkBlock [6] [7]];
     pipes := [(1, 2); (1, 4); (5, 6)]; output := Some out |}.
Definition ev (b : nat) (xs : list val) : res (list val) :=
  match b with
  | 0 => Ok [cars]
  | 1 => match xs with
         | [VList objects] => let* m := multiplot undec digits 5 ["mass"; "price"] "#/values/0" objects in
             Ok [VList (map (fun s => VDict (map (fun av : string * val => (KStr (fst av), snd av)) (values s))) (fst (fst m)))]
         | _ => Err TypeError
         end
  | 2 => Ok [VInt 2]
  | _ => Ok [VStr "two cars"]
  end.
Definition view (n : string) : option display_block :=
  Some {| chosen := ViewType n; block_type := "plot_data"; serialize_flag := true; load_flag := true; block_name := "Display" |}.
Definition shown_by (n1 n3 : string) (b : nat) : option display_block :=
  match b with 1 => view n1 | 3 => view n3 | _ => None end.
Definition no_default (v : nat) : option val := None.
Definition run_of n1 n3 : res (state val) :=
  let* s := run (wf 1) no_default (fun _ => false) (fun _ _ => true) ev (fun _ l => l) [(0, VInt 3)] in
  to_workflow_run (wf 1) no_default (fun _ => false) (fun _ _ => true) (fun _ l => l) (displays (wf 1) (shown_by n1 n3)) [] s.
Definition get := get_from_path (wf 1) undec digits (fun _ => Err AttributeError) 5.
Definition display_of_run n1 n3 r sel :=
  display_from_selector (wf 1) (shown_by n1 n3) no_default (fun _ => false) (fun _ _ => true) ev (fun _ l => l)
    (fun _ => Ok (VStr "# doc")) (fun v => Ok v) r sel.

Example C62_example : exists r, run_of "Cars" "Count" = Ok r
  /\ (let* l := run_settings (wf 1) (shown_by "Cars" "Count") in Ok (map (fun s => (s_selector s, s_path s, s_load s)) l))
     = Ok [("Documentation", "#", false); ("Cars", "#/values/0", true); ("Count", "#/values/2", true)]
  /\ display_of_run "Cars" "Count" r "Cars" = Ok {| d_type := "plot_data";
       d_data := VList [VDict [(KStr "mass", VInt 10); (KStr "price", VInt 11)]; VDict [(KStr "mass", VInt 20); (KStr "price", VInt 21)]];
       d_path := "#/values/0"; d_traceback := None |}
  /\ get r "#/values/0" = Ok cars /\ get r "#/values/0/1" = Ok (car "b" 20) /\ get r "#/values/0/1/mass" = Ok (VInt 20)
  /\ (* not computed for the output: nowhere, until it is displayed *) get r "#/values/2" = Err KeyError
  /\ (let* d := block_display (wf 1) no_default (fun _ => false) (fun _ _ => true) ev (fun _ l => l)
        (displays (wf 1) (shown_by "Cars" "Count")) (block_selector (shown_by "Cars" "Count")) 3 r in
      let* x := get (snd d) "#/values/2" in Ok (fst d, x)) = Ok (VStr "two cars", VInt 2)
  /\ get r "#/values/x" = Err ValueError /\ get r "#/values/7" = Err IndexError.
Proof.
  eexists. split; [vm_compute; reflexivity|]. repeat split; vm_compute; reflexivity.
Qed.

(** One selector for both: the plot fails, the count cannot be asked for. *)
Example C62_same_selector_example : exists r, run_of "View" "View" = Ok r
  /\ display_of_run "View" "View" r "View"
     = Ok {| d_type := "plot_data"; d_data := VNone; d_path := "#/values/0"; d_traceback := Some WorkflowError |}.
Proof. eexists. split; vm_compute; reflexivity. Qed.

(** A view named Documentation. *)
Example C62_documentation_example : exists r, run_of "Documentation" "Count" = Ok r
  /\ display_of_run "Documentation" "Count" r "Documentation"
     = Ok {| d_type := "markdown"; d_data := VStr "# doc"; d_path := "#"; d_traceback := None |}.
Proof. eexists. split; vm_compute; reflexivity. Qed.

(** A display block whose first input is an input of the workflow without pipe. *)
Example C62_one_bad_block_example :
  run_settings {| blocks := [mkBlock [0] [1]; mkBlock [2] [3]]; pipes := []; output := Some 1 |}
    (fun b => if Nat.eqb b 1 then view "Cars" else None) = Err ValueError.
Proof. reflexivity. Qed.

(** The hypotheses hold of the example. *)
Lemma wf_well_formed : well_formed (wf 1).
Proof.
  constructor.
  - vm_compute. repeat constructor; simpl; intuition discriminate.
  - vm_compute. repeat constructor; simpl; intuition discriminate.
  - intros s t [E|[E|[E|[]]]]; inversion E; subst; [exists (mkBlock [2] [3])|exists (mkBlock [4] [5])|exists (mkBlock [6] [7])]; simpl; auto 10.
  - intros s t b [E|[E|[E|[]]]] I; inversion E; subst; simpl in I; intuition subst; simpl in *; intuition discriminate.
  - intros o E. inversion E; subst. exists (mkBlock [0] [1]). simpl. auto.
Qed.
Example C62_hypotheses : well_formed (wf 1) /\ locks_sound no_default (fun _ => false)
  /\ (forall n, undec (dec n) = Some (Z.of_nat n)) /\ (forall n, digits (dec n) = true)
  /\ shows (wf 1) (shown_by "Cars" "Count") 3 {| chosen := ViewType "Count"; block_type := "plot_data"; serialize_flag := true; load_flag := true; block_name := "Display" |} 6.
Proof.
  split; [exact wf_well_formed|]. split; [intros v E; discriminate|]. split; [exact undec_dec|]. split; [exact digits_dec|].
  split; [reflexivity|]. exists (mkBlock [6] [7]), []. split; reflexivity.
Qed.

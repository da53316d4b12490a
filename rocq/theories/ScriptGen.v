(** Scripts of workflows: they are written, they parse, and what they import. *)
From Coq Require Import ZArith Bool String Ascii Arith Lia List Decimal DecimalString DecimalNat DecimalFacts.
From Verif Require Import Base BaseProofs ExecModel ExecSpec ExecStruct WiringModel WiringSpec WiringProofs VariablesModel
  ScriptModel ScriptSpec ScriptProofs ScriptExec.
Import ListNotations.
Open Scope string_scope.
Open Scope list_scope.

Section G.
Context {V : Type}.
Variable params : cls -> string -> list (variable V string).
Variable text : string -> V.
Notation variable := (variable V string).
Notation wf := (@wf V).
Notation part := (@part V).
Notation sound := (sound params text).
Notation fits := (fits params text).

Lemma list_parses l : (fix go (l : list expr) := match l with [] => true | e :: l' => expr_parses e && go l' end) l = forallb expr_parses l.
Proof. induction l; simpl; auto. Qed.

Lemma quoted_parses l : (forall a, In a l -> quotable "'" false a) -> forallb expr_parses (quoted l) = true.
Proof.
  intros H. unfold quoted. destruct l as [|a l]; [reflexivity|]. apply forallb_forall. intros e I.
  apply in_map_iff in I. destruct I as [x [<- I]]. simpl. apply plain_spec. apply H. exact I.
Qed.

Definition args_parse (args : list (string * expr)) : bool := forallb (fun a => expr_parses (snd a)) args.

Lemma pviews_parse vs : (forall v, In v vs -> quotable "'" false (pv_name v) /\ (forall a, In a (pv_attributes v) -> quotable "'" false a)) ->
  expr_parses (EList (map pview_script vs)) = true.
Proof.
  intros H. cbn [expr_parses]. rewrite list_parses. apply forallb_forall. intros e I. apply in_map_iff in I.
  destruct I as [v [<- I]]. destruct (H v I) as [A B]. unfold pview_script. cbn [expr_parses].
  assert (Q := quoted_parses _ B). apply plain_spec in A. change sq with ("'"%char). rewrite A.
  destruct (pv_parallel v); cbn [expr_parses]; rewrite list_parses, Q; reflexivity.
Qed.

Lemma conf_gen c name n pos : writable c name -> exists imps f args, conf_script c n name pos = Ok (imps, (f, args))
  /\ args_parse args = true /\ (forall k, In k imps -> In k (conf_uses c))
  /\ ((match c with CSetAttribute _ _ => False | _ => True end) -> forall k, In k (conf_uses c) -> In k imps).
Proof.
  intros W. destruct c; cbn [writable] in W; try contradiction; cbn [conf_script];
  repeat match goal with
  | H : _ /\ _ |- _ => destruct H
  | H : quotable _ _ _ |- _ => apply plain_spec in H
  end;
  do 3 eexists; (split; [reflexivity|]);
  (split; [unfold args_parse, base_script, display_base, typed, attribute_script; cbn [forallb snd expr_parses]; unfold sq, dq in *;
     repeat match goal with H : plain _ _ _ = true |- _ => rewrite H; clear H end; cbn; auto|]).
  all: try (split; [intros ? I; try destruct v; cbn in *; tauto|intros T ? I; try destruct v; cbn in *; tauto]).
  - (* MultiObject *)
    rewrite andb_true_r. change (expr_parses (EList (map pview_script views)) = true). apply pviews_parse.
    intros v I. destruct (H1 v I) as [A [B _]]. auto.
  - split.
    + intros k I. apply in_app_or in I. cbn. destruct I as [I|[<-|[]]]; auto.
    + intros _ k I. cbn in I. apply in_or_app. destruct I as [<-|I]; auto. right. left. auto.
Qed.

Definition gen_ok (ow : res (list cls * list stmt)) (used : list cls) (free : Prop) : Prop :=
  exists imps body, ow = Ok (imps, body) /\ forallb parses body = true /\ (forall k, In k imps -> In k used)
  /\ (free -> forall k, In k used -> In k imps).

Definition part_gen (p : part) : Prop := forall b, fits p b -> forall n, exists imps before f args,
  part_script n p (length (b_in b)) = Ok (imps, before, (f, args))
  /\ forallb parses before = true /\ args_parse args = true /\ (forall k, In k imps -> In k (part_uses p))
  /\ (part_set_free p -> forall k, In k (part_uses p) -> In k imps).

Lemma locks_gen x (ins : list variable) : (forall v, In v ins -> good v) -> forall i, exists l, lock_script x i ins = Ok l /\ forallb parses l = true.
Proof.
  induction ins as [|v ins IH]; intros G i; cbn [lock_script]; [exists []; auto|].
  rewrite (locked_good v) by (apply G; simpl; auto). cbn [bind].
  destruct (IH (fun u J => G u (or_intror J)) (S i)) as [l [-> P]]. cbn [bind].
  eexists. split; [reflexivity|]. destruct (v_lock v); auto.
Qed.

Definition all_free (ps : list part) : Prop := (fix go l := match l with [] => True | p :: l' => part_set_free p /\ go l' end) ps.

Lemma blocks_gen info n ps : Forall part_gen ps -> forall bs i, all2 fits ps bs ->
  (forall b v, In b bs -> In v (b_in b) -> good (info v)) ->
  gen_ok (blocks_script (part_script n) n info i ps bs) (flat_map part_uses ps) (all_free ps).
Proof.
  intros FG. induction FG as [|p ps Hp FG IH]; intros bs i A G.
  - exists [], []. destruct bs; [|destruct A]. repeat split; auto; intros k [].
  - destruct bs as [|b bs]; [destruct A|]. destruct A as [F A].
    destruct (Hp b F n) as [imps1 [before [f [args [E1 [P1 [P2 [I1 J1]]]]]]]].
    destruct (IH bs (S i) A (fun b' v J => G b' v (or_intror J))) as [imps2 [body2 [E2 [P3 [I2 J2]]]]].
    destruct (locks_gen (Sub n (NBlock i)) (map info (b_in b))) with (i := 0) as [lines [El P4]].
    { intros v J. apply in_map_iff in J. destruct J as [u [<- J]]. apply (G b); simpl; auto. }
    exists (imps1 ++ imps2), (before ++ SBlock (Sub n (NBlock i)) f args :: lines ++ body2). split; [|split; [|split]].
    + change (blocks_script (part_script n) n info i (p :: ps) (b :: bs)) with
        (let* s := part_script n p (length (b_in b)) in
         let* locks := lock_script (Sub n (NBlock i)) 0 (map info (b_in b)) in
         let* r := blocks_script (part_script n) n info (S i) ps bs in
         Ok (fst (fst s) ++ fst r, snd (fst s) ++ SBlock (Sub n (NBlock i)) (fst (snd s)) (snd (snd s)) :: locks ++ snd r)).
      rewrite E1. cbn [bind]. rewrite El. cbn [bind]. rewrite E2. reflexivity.
    + rewrite forallb_app. cbn [forallb parses]. rewrite forallb_app. fold (args_parse args). rewrite P1, P2, P3, P4. reflexivity.
    + intros k I. cbn [flat_map]. apply in_or_app. apply in_app_or in I. destruct I; auto.
    + intros [Fp Fs] k I. cbn [flat_map] in I. apply in_or_app. apply in_app_or in I. destruct I; auto.
Qed.

Definition wf_gen (w : wf) : Prop := sound w -> forall n, gen_ok (wf_script n w) (uses w) (set_free w).

Lemma wf_gen_step d (info : nat -> variable) (ps : list part) doc nm : Forall part_gen ps -> wf_gen (Wf d info ps doc nm).
Proof.
  intros FG [WF [O [A [LK [QD [QN QV]]]]]] n.
  change (uses (Wf d info ps doc nm)) with
    (in_core "Workflow" :: flat_map part_uses ps ++ (match pipes d with [] => [] | _ => [in_core "Pipe"] end)
       ++ (match nonblock_variables d with [] => [] | _ => [in_core "Variable"] end)).
  destruct (output d) as [o|] eqn:Eo; [|exfalso; apply O; auto].
  destruct (output_address d WF (fun v => v) o Eo) as [bo [ko [Ea _]]].
  destruct (blocks_gen info n ps FG (blocks d) 0 A) as [imps [body [Eb [Pb [I J]]]]].
  { intros b v Ib Iv L. eapply LK; eauto. }
  assert (EP : exists pl, pipes_script n d = Ok pl /\ forallb parses pl = true).
  { unfold pipes_script.
    assert (G : forall l, incl (map snd l) (pipes d) -> exists pl, mapM (fun ip : nat * (nat * nat) =>
                    let* a := variable_indices d (fst (snd ip)) in
                    let* b := variable_indices d (snd (snd ip)) in
                    Ok (SPipe (Sub n (NPipe (fst ip))) (source_script n a) (target_script n b))) l = Ok pl /\ forallb parses pl = true).
    { induction l as [|[i [u t]] l IH]; intros K; [exists []; auto|].
      destruct (IH (fun y L => K y (or_intror L))) as [pl [E P]].
      destruct (source_address d WF (fun v => v) u t (K _ (or_introl eq_refl))) as [a1 [E1 _]].
      destruct (target_address d WF (fun v => v) u t (K _ (or_introl eq_refl))) as [a2 [E2 _]].
      cbn [mapM fst snd]. rewrite E1. cbn [bind]. rewrite E2. cbn [bind]. rewrite E. cbn [bind]. eauto. }
    destruct (G (enumerate (pipes d))) as [pl [M P]]; [rewrite enumerate_snd; apply incl_refl|]. rewrite M. cbn [bind].
    eexists. split; [reflexivity|]. rewrite forallb_app, P. reflexivity. }
  destruct EP as [pl [EP PP]].
  unfold gen_ok. rewrite (generated n d info ps doc nm o Eo), Ea. cbn [bind]. rewrite Eb. cbn [bind]. rewrite EP. cbn [bind fst snd].
  do 2 eexists. split; [reflexivity|]. apply plain_spec in QD, QN. split; [|split].
  - cbn [forallb parses]. unfold dq. rewrite QD. cbn [andb]. rewrite forallb_app, Pb. cbn [forallb parses andb].
    rewrite !forallb_app, PP. cbn [forallb parses andb]. unfold dq. rewrite QN, !andb_true_r.
    apply forallb_forall. intros x K. apply in_map_iff in K. destruct K as [[k v] [<- K]]. cbn [parses]. apply plain_spec. apply QV.
    apply enumerate_In in K. eapply nth_error_In; eauto.
  - intros k K. apply in_app_or in K. destruct K as [K|K]; [right; apply in_or_app; left; auto|].
    apply in_app_or in K. destruct K as [K|K].
    + apply in_map_iff in K. destruct K as [v [<- K]]. right. apply in_or_app. right. apply in_or_app. right.
      destruct (nonblock_variables d); [destruct K|left; auto].
    + apply in_app_or in K. destruct K as [K|[<-|[]]]; [|left; auto]. right. apply in_or_app. right. apply in_or_app. left. auto.
  - intros F k [<-|K].
    + apply in_or_app. right. apply in_or_app. right. apply in_or_app. right. left. auto.
    + apply in_app_or in K. destruct K as [K|K]; [apply in_or_app; left; exact (J F k K)|].
      apply in_or_app. right. apply in_or_app. apply in_app_or in K. destruct K as [K|K].
      * right. apply in_or_app. left. auto.
      * left. destruct (nonblock_variables d); [destruct K|]. destruct K as [<-|[]]. left. auto.
Qed.

Lemma base_parses n p : quotable """" false n -> args_parse (base_script n p) = true.
Proof. intros Q. apply plain_spec in Q. unfold args_parse, base_script. cbn [forallb snd expr_parses]. unfold dq. rewrite Q. reflexivity. Qed.

Lemma wf_gen_all w : wf_gen w.
Proof.
  revert w. apply (wf_ind' wf_gen part_gen).
  - intros. apply wf_gen_step. auto.
  - intros c nm pos b [W _] n. destruct (conf_gen c nm (length (b_in b)) pos W) as [imps [f [args [E [P [I J]]]]]].
    exists imps, [], f, args. cbn [part_script]. rewrite E. split; [reflexivity|]. split; [reflexivity|]. split; [exact P|].
    split; [exact I|]. intros F. apply J. destruct c; auto.
  - intros w nm pos IH b [D [S _]] n. destruct (IH S (Datatypes.S n)) as [imps [body [E [P [I J]]]]].
    change (part_script n (Part (KWorkflow w) nm pos) (length (b_in b))) with (let* s := wf_script (Datatypes.S n) w in
      Ok (fst s ++ [in_blocks "WorkflowBlock"], snd s,
          ("WorkflowBlock", ("workflow", EName (Sub (Datatypes.S n) NWorkflow)) :: base_script nm pos))).
    rewrite E. cbn [bind fst snd]. do 4 eexists. split; [reflexivity|]. split; [exact P|].
    split; [cbn [args_parse forallb snd expr_parses]; apply base_parses; auto|]. cbn [part_uses]. split.
    + intros k K. apply in_app_or in K. destruct K as [K|[<-|[]]]; [right; auto|left; auto].
    + intros F k [<-|K]; apply in_or_app; [right; left; auto|left; auto].
  - intros w bn bp i nm pos IH b [D [D' [S _]]] n. destruct (IH S (Datatypes.S n)) as [imps [body [E [P [I J]]]]].
    change (part_script n (Part (KForEach w bn bp i) nm pos) (length (b_in b))) with (let* s := wf_script (Datatypes.S n) w in
      Ok (fst s ++ [in_blocks "WorkflowBlock"] ++ [in_blocks "ForEach"],
        snd s ++ [SBlock NWfblock "WorkflowBlock" (("workflow", EName (Sub (Datatypes.S n) NWorkflow)) :: base_script bn bp)],
        ("ForEach", ("workflow_block", EName NWfblock) :: ("iter_input_index", ENat i) :: base_script nm pos))).
    rewrite E. cbn [bind fst snd]. do 4 eexists. split; [reflexivity|]. split.
    { rewrite forallb_app, P. cbn [forallb parses]. rewrite andb_true_r. cbn [forallb snd expr_parses andb]. apply base_parses; auto. }
    split; [cbn [args_parse forallb snd expr_parses]; apply base_parses; auto|]. cbn [part_uses]. split.
    + intros k K. apply in_app_or in K. destruct K as [K|[<-|[<-|[]]]]; [right; right; auto|right; left; auto|left; auto].
    + intros F k [<-|[<-|K]]; apply in_or_app; [right; right; left; auto|right; left; auto|left; auto].
Qed.
End G.

(** ** Names *)
Lemma dec_inj a b : dec a = dec b -> a = b.
Proof.
  assert (N : forall n, Nat.to_uint n <> Nil).
  { intros n. rewrite <- (Unsigned.of_to n), Unsigned.to_of. apply unorm_nonnil. }
  unfold dec. intros E. assert (Q := f_equal NilZero.uint_of_string E).
  rewrite !NilZero.usu in Q by apply N. inversion Q. apply Unsigned.to_uint_inj. auto.
Qed.

Lemma base_inj x y : render_base x = render_base y -> x = y.
Proof.
  destruct x, y; cbn; intros E; inversion E; auto; try (f_equal; apply dec_inj; auto; fail).
Qed.

Lemma base_sub x n s : render_base x = ("sub_" ++ render_sub n s)%string -> False.
Proof. destruct x; cbn; intros E; inversion E. Qed.

Lemma render_inj x y : render x = render y -> x = y.
Proof.
  assert (W : forall n b, render_sub n (render_base b) = "wfblock" -> False).
  { intros [|n] b; cbn; [destruct b; cbn; intros E; inversion E|intros E; inversion E]. }
  destruct x as [n b|], y as [m c|]; cbn [render]; intros E; auto.
  - revert m E. induction n as [|n IH]; intros [|m] E.
    + apply base_inj in E. subst. auto.
    + exfalso. eapply base_sub; eauto.
    + exfalso. eapply base_sub. symmetry. exact E.
    + cbn [render_sub] in E. inversion E as [Q]. apply IH in Q. inversion Q. auto.
  - exfalso. eapply W; eauto.
  - exfalso. eapply W; eauto.
Qed.

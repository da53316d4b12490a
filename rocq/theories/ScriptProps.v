(** Properties of the scripts of workflows (workflow/core.py:1301-1373, workflow/utils.py:14-78). *)
From Coq Require Import ZArith Bool String Ascii Arith Lia List.
From Verif Require Import Base BaseProofs ExecModel ExecSpec ExecStruct WiringModel WiringSpec WiringProofs WiringProps
  VariablesModel ScriptModel ScriptSpec ScriptProofs ScriptExec ScriptGen.
Import ListNotations.
Open Scope string_scope.
Open Scope list_scope.

Section T.
Context {V : Type}.
Variable params : cls -> string -> list (variable V string).
Variable text : string -> V.
Notation sound := (sound params text).
Notation comes_back := (comes_back params text).
Notation locks_kept := (locks_kept params text).
Notation run_script := (run_script params text).

(** Writing never fails, and the classes imported are the ones the script names. *)
Theorem C49_written (w : @wf V) : sound w -> exists script, to_script w = Ok script
  /\ (forall c, imported (fst script) c -> In c (uses w))
  /\ (set_free w -> forall c, In c (uses w) -> imported (fst script) c).
Proof.
  intros S. destruct (wf_gen_all params text w S 0) as [imps [body [E [_ [I J]]]]].
  unfold to_script. rewrite E. cbn [bind fst snd]. eexists. split; [reflexivity|]. cbn [fst].
  destruct (import_dict_spec imps) as [_ D]. split.
  - intros c K. apply I, D, K.
  - intros F c K. apply D, (J F), K.
Qed.

Lemma script_runs w script : unlocked_params params -> sound w -> unambiguous (uses w) -> to_script w = Ok script ->
  (forall c, In c (uses w) -> imported (fst script) c) ->
  (exists w', run_script script = Ok w' /\ comes_back w w' /\ locks_kept w) \/ (run_script script = Err ValueError /\ ~ locks_kept w).
Proof.
  intros UP S U E K. destruct (wf_gen_all params text w S 0) as [imps [body [Eg [P [I _]]]]].
  unfold to_script in E. rewrite Eg in E. cbn [bind fst snd] in E. inversion E; subst script. clear E. cbn [fst snd] in *.
  destruct (import_dict_spec imps) as [_ D].
  assert (Kn : known (import_dict imps) (uses w)).
  { intros c J. apply resolve_ok; [|apply D, K, J]. intros a b A B. apply U; auto. }
  destruct (wf_runs_all params text UP (import_dict imps) w S Kn 0) as [imps' [body' [E' R]]].
  rewrite Eg in E'. inversion E'; subst imps' body'. clear E'.
  unfold ScriptModel.run_script, run_state. cbn [fst snd]. rewrite P.
  destruct (R start) as [[s' [w' [X [_ [En [[CB _] [_ [L _]]]]]]]]|[X L]]; rewrite X; cbn [bind].
  - left. rewrite En. eauto.
  - right. auto.
Qed.

(** Executing the script of a workflow builds the workflow again, provided the names of
    the classes are unambiguous, they are imported and the locked inputs get default values
    from the constructors. *)
Theorem C49_rebuilt (w : @wf V) script : unlocked_params params -> sound w -> unambiguous (uses w) -> to_script w = Ok script ->
  (forall c, In c (uses w) -> imported (fst script) c) -> locks_kept w ->
  exists w', run_script script = Ok w' /\ comes_back w w'.
Proof.
  intros UP S U E K L. destruct (script_runs w script UP S U E K) as [[w' [A [B _]]]|[_ H]]; [eauto|contradiction].
Qed.

(** Otherwise, it raises. *)
Theorem C49_lock_raises (w : @wf V) script : unlocked_params params -> sound w -> unambiguous (uses w) -> to_script w = Ok script ->
  (forall c, In c (uses w) -> imported (fst script) c) -> ~ locks_kept w -> run_script script = Err ValueError.
Proof.
  intros UP S U E K L. destruct (script_runs w script UP S U E K) as [[w' [A [B H]]]|[H _]]; [contradiction|exact H].
Qed.

(** The workflow built has the same inputs in the same order, and computes the same values. *)
Theorem C49_same_values (w w' : @wf V) script : unlocked_params params -> sound w -> unambiguous (uses w) -> to_script w = Ok script ->
  (forall c, In c (uses w) -> imported (fst script) c) -> run_script script = Ok w' ->
  exists h, inputs (diagram w') = map h (inputs (diagram w)) /\ output (diagram w') = option_map h (output (diagram w))
  /\ forall (evaluate : nat -> list V -> res (list V)) given given',
     (forall v, In v (variables (diagram w)) -> given' (h v) = given v) -> forall v x, In v (variables (diagram w)) ->
     (has_value (diagram w') given' evaluate (h v) x <-> has_value (diagram w) given evaluate v x).
Proof.
  intros UP S U E K R. destruct (script_runs w script UP S U E K) as [[w2 [A [B _]]]|[A _]]; rewrite A in R; inversion R; subst w2.
  inversion B as [d info ps doc name h info' ps' SEP F1 F2 F3 Q1 Q2]; subst. destruct S as [WF _]. cbn [diagram] in *.
  exists h. split; [exact (inputs_map d WF h SEP)|]. split; [reflexivity|].
  intros evaluate given given' G v x I. apply C41_same_diagram_same_values; auto.
Qed.

(** Without nested workflows, the documentation is kept. *)
Theorem C49_documentation (w w' : @wf V) script : unlocked_params params -> sound w -> unambiguous (uses w) -> to_script w = Ok script ->
  (forall c, In c (uses w) -> imported (fst script) c) -> run_script script = Ok w' ->
  (forall k name pos, In (Part k name pos) (parts w) -> exists c, k = KConf c) -> doc w' = doc w.
Proof.
  intros UP S U E K R N. destruct (script_runs w script UP S U E K) as [[w2 [A [B _]]]|[A _]]; rewrite A in R; inversion R; subst w2.
  inversion B as [d info ps dc name h info' ps' SEP F1 F2 F3 Q1 Q2]; subst. cbn [doc parts last_doc] in *.
  clear - N. revert N. induction ps as [|[k nm pos] ps IH]; intros N; cbn [fold_left]; auto.
  destruct (N k nm pos (or_introl eq_refl)) as [c ->]. cbn [part_doc]. apply IH. intros. eapply N. right. eauto.
Qed.

(** A Filter makes the script of its workflow unreadable. *)
Lemma blocks_in (f : part -> nat -> part_lines) n (info : nat -> variable V string) p b ps : forall bs i imps body j,
  blocks_script f n info i ps bs = Ok (imps, body) -> nth_error ps j = Some p -> nth_error bs j = Some b ->
  exists s, f p (List.length (b_in b)) = Ok s /\ In (SBlock (Sub n (NBlock (i + j))) (fst (snd s)) (snd (snd s))) body.
Proof.
  induction ps as [|q ps IH]; intros [|c bs] i imps body [|j] E Np Nb; try discriminate.
  - inversion Np; inversion Nb; subst. cbn in E. destruct (f p (List.length (b_in b))) as [s|]; [|discriminate]. cbn [bind] in E.
    destruct (lock_script _ 0 _); [|discriminate]. cbn [bind] in E. destruct (blocks_script f n info (S i) ps bs); [|discriminate]. cbn [bind] in E.
    inversion E. exists s. split; auto. rewrite Nat.add_0_r. apply in_or_app. right. left. reflexivity.
  - cbn [nth_error] in *.
    change (blocks_script f n info i (q :: ps) (c :: bs)) with
      (let* s := f q (List.length (b_in c)) in
       let* locks := lock_script (Sub n (NBlock i)) 0 (map info (b_in c)) in
       let* r := blocks_script f n info (S i) ps bs in
       Ok (fst (fst s) ++ fst r, snd (fst s) ++ SBlock (Sub n (NBlock i)) (fst (snd s)) (snd (snd s)) :: locks ++ snd r)) in E.
    destruct (f q (List.length (b_in c))) as [s|]; [|discriminate]. cbn [bind] in E.
    destruct (lock_script _ 0 _) as [lk|]; [|discriminate]. cbn [bind] in E.
    destruct (blocks_script f n info (S i) ps bs) as [[i2 b2]|] eqn:E2; [|discriminate]. cbn [bind] in E. inversion E.
    destruct (IH bs (S i) i2 b2 j E2 Np Nb) as [s' [Es I]]. exists s'. split; auto. rewrite Nat.add_succ_r.
    apply in_or_app. right. right. apply in_or_app. right. exact I.
Qed.

Theorem C49_filter_unreadable (w : @wf V) script fs op name pos j b : to_script w = Ok script ->
  nth_error (parts w) j = Some (Part (KConf (CFilter fs op)) name pos) -> nth_error (blocks (diagram w)) j = Some b ->
  run_script script = Err SyntaxError.
Proof.
  intros E Np Nb. destruct w as [d info ps dc nm]. cbn [parts diagram] in *. unfold to_script in E.
  destruct (output d) as [o|] eqn:Eo; [|cbn [wf_script] in E; rewrite Eo in E; discriminate].
  rewrite (generated 0 d info ps dc nm o Eo) in E. destruct (variable_indices d o) as [a|]; [|discriminate]. cbn [bind] in E.
  destruct (blocks_script (part_script 0) 0 info 0 ps (blocks d)) as [[imps body]|] eqn:B; [|discriminate]. cbn [bind fst snd] in E.
  destruct (pipes_script 0 d) as [pl|]; [|discriminate]. cbn [bind] in E.
  destruct a as [k|i side k]; [discriminate|]. cbn [bind fst snd] in E. inversion E. clear E. subst script.
  destruct (blocks_in _ _ _ _ _ _ _ _ _ _ _ B Np Nb) as [s [Es I]]. cbn [part_script conf_script bind fst snd] in Es. inversion Es; subst s.
  cbn [fst snd] in I. unfold ScriptModel.run_script, run_state. cbn [fst snd].
  match goal with |- context [forallb parses ?l] => destruct (forallb parses l) eqn:P end; [|reflexivity].
  exfalso. rewrite forallb_forall in P. specialize (P _ ltac:(right; apply in_or_app; left; exact I)).
  cbn in P. discriminate P.
Qed.
End T.

(** Variables of a script have different names. *)
Theorem C49_names_distinct x y : render x = render y -> x = y.
Proof. exact (render_inj x y). Qed.

Print Assumptions C49_written.
Print Assumptions C49_rebuilt.
Print Assumptions C49_lock_raises.
Print Assumptions C49_same_values.
Print Assumptions C49_documentation.
Print Assumptions C49_filter_unreadable.
Print Assumptions C49_names_distinct.

(** ** Examples and what does not come back *)

(** Values are texts; Car(wheels, colour="red") has a method drive(km, fast="no"). *)
Definition params_ex (c : cls) (m : string) : list (variable string string) :=
  if String.eqb (c_name c) "Car" then
    if String.eqb m "__init__" then [mkVar None false "wheels"; mkVar (Some "red") false "colour"]
    else [mkVar None false "km"; mkVar (Some "no") false "fast"]
  else [mkVar None false "x"].
Definition rerun (w : @wf string) : res wf :=
  let* s := to_script w in run_script params_ex (fun s => s) s.

Definition car : cls := mkCls "cars" "Car".
Definition locked (l : list nat) (v : nat) : variable string string :=
  if memb Nat.eqb v l then mkVar (Some "blue") true "input" else mkVar None false "input".

(** a workflow of one block, with [i] inputs and [o] outputs *)
Definition one (p : part) (i o : nat) (l : list nat) (doc : string) : @wf string :=
  Wf (mkWf [mkBlock (seq 0 i) (seq i o)] [] (Some i)) (locked l) [p] doc "one".

(** a car is built and driven; its colour is locked; both wheels and km come from the
    same variable *)
Definition trip : @wf string :=
  Wf (mkWf [mkBlock [0; 1] [2]; mkBlock [3; 4; 5] [6; 7]] [(2, 3); (8, 0); (8, 4)] (Some 6)) (locked [1; 8])
     [Part (KConf (CInstantiate car)) "Build" (0, 0)%Z; Part (KConf (CModelMethod car "drive")) "Drive" (1, 0)%Z]
     "A trip" "trip".
(** the trip, for each of many wheels *)
Definition tour : @wf string :=
  Wf (mkWf [mkBlock [0; 1; 2] [3]; mkBlock [4] [5]] [(3, 4)] (Some 5)) (locked [])
     [Part (KForEach trip "inner" (0, 1)%Z 2) "Each" (2, 3)%Z; Part (KConf CFlatten) "Flat" (4, 5)%Z]
     "A tour" "tour".

Ltac quote_tac := apply plain_spec; reflexivity.

Lemma trip_sound : sound params_ex (fun s => s) trip.
Proof.
  cbn [trip sound]. split; [|split; [|split; [|split; [|split; [|split]]]]].
  - split.
    + cbn. repeat constructor; cbn; lia.
    + cbn. repeat constructor; cbn; lia.
    + cbn. intros s t [E|[E|[E|[]]]]; inversion E; subst; [exists (mkBlock [3; 4; 5] [6; 7])|exists (mkBlock [0; 1] [2])|exists (mkBlock [3; 4; 5] [6; 7])]; cbn; auto 6.
    + cbn. intros s t b [E|[E|[E|[]]]] [<-|[<-|[]]]; inversion E; subst; cbn; lia.
    + cbn. intros o E. inversion E; subst. eexists. split; [right; left; reflexivity|cbn; auto].
  - discriminate.
  - cbn [all2 fits blocks writable]. repeat match goal with |- _ /\ _ => split end; try quote_tac; try reflexivity; try exact I. discriminate.
  - cbn. intros b v [<-|[<-|[]]] I; cbn in I; repeat (destruct I as [<-|I]); try contradiction; cbn; intros H; try discriminate.
  - quote_tac.
  - quote_tac.
  - cbn. intros v [<-|[]]. quote_tac.
Qed.

Lemma tour_sound : sound params_ex (fun s => s) tour.
Proof.
  cbn [tour sound]. split; [|split; [|split; [|split; [|split; [|split]]]]].
  - split.
    + cbn. repeat constructor; cbn; lia.
    + cbn. repeat constructor; cbn; lia.
    + cbn. intros s t [E|[]]; inversion E; subst. exists (mkBlock [4] [5]). cbn. auto.
    + cbn. intros s t b [E|[]] [<-|[<-|[]]]; inversion E; subst; cbn; lia.
    + cbn. intros o E. inversion E; subst. eexists. split; [right; left; reflexivity|cbn; auto].
  - discriminate.
  - cbn [all2 blocks]. split; [|split; [|exact I]].
    + cbn [fits]. split; [quote_tac|]. split; [quote_tac|]. split; [exact trip_sound|]. vm_compute. auto.
    + cbn [fits writable]. split; [quote_tac|split; reflexivity].
  - cbn. intros b v [<-|[<-|[]]] I; cbn in I; repeat (destruct I as [<-|I]); try contradiction; cbn; intros H; try discriminate.
  - quote_tac.
  - quote_tac.
  - cbn. intros v [].
Qed.

Example C49_trip_rebuilt :
  match rerun trip with
  | Ok (Wf d info ps dc nm) =>
      blocks d = [mkBlock [0; 1] [2]; mkBlock [3; 4; 5] [6; 7]] /\ pipes d = [(2, 3); (8, 0); (8, 4)]
      /\ output d = Some 6 /\ ps = parts trip /\ dc = "A trip" /\ nm = "trip"
      /\ info 1 = mkVar (Some "red") true "colour" /\ info 5 = mkVar (Some "no") false "fast"
      /\ info 8 = mkVar None false "input"
  | Err _ => False
  end.
Proof. vm_compute. repeat split. Qed.

Example C49_tour_rebuilt :
  match rerun tour with
  | Ok (Wf d info ps dc nm) =>
      length (blocks d) = 2 /\ length (pipes d) = 1 /\ nm = "tour"
      /\ map (fun b => (length (b_in b), length (b_out b))) (blocks d) = [(3, 1); (1, 1)]
      /\ match ps with
         | [Part (KForEach inner "inner" (0, 1)%Z 2) "Each" (2, 3)%Z; Part (KConf CFlatten) "Flat" (4, 5)%Z] =>
             length (pipes (diagram inner)) = 3 /\ parts inner = parts trip /\ wname inner = "trip"
         | _ => False
         end
  | Err _ => False
  end.
Proof. vm_compute. repeat split. Qed.

Example C49_tour_imports :
  match to_script tour with
  | Ok s => fst s = [("cars", ["Car"]);
                     ("dessia_common.workflow.blocks", ["InstantiateModel"; "ModelMethod"; "WorkflowBlock"; "ForEach"; "Flatten"]);
                     ("dessia_common.typings", ["MethodType"]);
                     ("dessia_common.workflow.core", ["Variable"; "Pipe"; "Workflow"])]
  | Err _ => False
  end.
Proof. vm_compute. reflexivity. Qed.

(** A workflow that holds another one comes back with the documentation of the latter. *)
Theorem C49_nested_documentation_refuted : exists w w', sound params_ex (fun s => s) w /\ rerun w = Ok w'
  /\ doc w = "A tour" /\ doc w' = "A trip".
Proof. eexists tour, _. split; [exact tour_sound|]. split; [vm_compute; reflexivity|]. split; reflexivity. Qed.

(** A locked variable that belongs to no block comes back unlocked, without its value. *)
Theorem C49_free_variable_lock_refuted : exists w w' v v', sound params_ex (fun s => s) w /\ rerun w = Ok w'
  /\ nonblock_variables (diagram w) = [v] /\ nonblock_variables (diagram w') = [v']
  /\ info w v = mkVar (Some "blue") true "input" /\ info w' v' = mkVar None false "input".
Proof.
  eexists trip, _, 8, 8. split; [exact trip_sound|]. split; [vm_compute; reflexivity|]. vm_compute. repeat split.
Qed.

(** The default value of an input is not written: a locked input gets the one of the
    signature. *)
Theorem C49_default_refuted : exists w w', sound params_ex (fun s => s) w /\ rerun w = Ok w'
  /\ info w 1 = mkVar (Some "blue") true "input" /\ info w' 1 = mkVar (Some "red") true "colour"
  /\ blocks (diagram w) = blocks (diagram w').
Proof.
  eexists trip, _. split; [exact trip_sound|]. split; [vm_compute; reflexivity|]. vm_compute. repeat split.
Qed.

Lemma one_sound c name pos i o l dc : writable c name -> i = length (fst (ports params_ex (fun s => s) c)) ->
  S o = length (snd (ports params_ex (fun s => s) c)) -> quotable """" true dc ->
  sound params_ex (fun s => s) (one (Part (KConf c) name pos) i (S o) l dc).
Proof.
  intros W Li Lo Q. unfold one. cbn [sound]. split; [|split; [|split; [|split; [|split; [|split]]]]].
  - split.
    + cbn [block_variables blocks flat_map b_in b_out]. rewrite app_nil_r, <- seq_app. apply seq_NoDup.
    + constructor.
    + intros s t [].
    + intros s t b [].
    + cbn [output]. intros v E. inversion E; subst. eexists. split; [left; reflexivity|]. cbn. auto.
  - discriminate.
  - cbn [all2 blocks fits]. cbn [b_in b_out]. rewrite !seq_length. auto.
  - cbn. intros b v _ _. unfold locked. destruct (memb Nat.eqb v l); cbn; congruence.
  - exact Q.
  - quote_tac.
  - cbn. intros v [].
Qed.

(** An input locked on a value of its own cannot be locked again. *)
Theorem C49_lock_refuted : exists w, sound params_ex (fun s => s) w /\ is_locked (info w 0) = Ok true /\ rerun w = Err ValueError.
Proof.
  exists (one (Part (KConf (CInstantiate car)) "Build" (0, 0)%Z) 2 1 [0] "").
  split; [apply one_sound; [quote_tac|reflexivity|reflexivity|quote_tac]|]. split; vm_compute; reflexivity.
Qed.

(** Two classes of the same name: the blocks of one come back on the other. *)
Definition two_cars : @wf string :=
  Wf (mkWf [mkBlock [0; 1] [2]; mkBlock [3; 4] [5]] [] (Some 5)) (locked [])
     [Part (KConf (CInstantiate car)) "A" (0, 0)%Z; Part (KConf (CInstantiate (mkCls "toys" "Car"))) "B" (0, 0)%Z] "" "two".
Theorem C49_same_name_refuted : exists w w', sound params_ex (fun s => s) w /\ rerun w = Ok w'
  /\ parts w = [Part (KConf (CInstantiate (mkCls "cars" "Car"))) "A" (0, 0)%Z; Part (KConf (CInstantiate (mkCls "toys" "Car"))) "B" (0, 0)%Z]
  /\ parts w' = [Part (KConf (CInstantiate (mkCls "toys" "Car"))) "A" (0, 0)%Z; Part (KConf (CInstantiate (mkCls "toys" "Car"))) "B" (0, 0)%Z].
Proof.
  eexists two_cars, _. split; [|split; [vm_compute; reflexivity|split; reflexivity]].
  cbn [two_cars sound]. split; [|split; [|split; [|split; [|split; [|split]]]]].
  - split.
    + cbn. repeat constructor; cbn; lia.
    + constructor.
    + intros s t [].
    + intros s t b [].
    + cbn. intros o E. inversion E; subst. eexists. split; [right; left; reflexivity|cbn; auto].
  - discriminate.
  - cbn [all2 fits blocks writable]. repeat match goal with |- _ /\ _ => split end; try quote_tac; try reflexivity; exact I.
  - cbn. intros; discriminate.
  - quote_tac.
  - quote_tac.
  - cbn. intros v [].
Qed.

(** The script of a SetModelAttribute names classes it does not import. *)
Theorem C49_set_attribute_refuted : exists w, sound params_ex (fun s => s) w /\ unambiguous (uses w) /\ rerun w = Err NameError.
Proof.
  exists (one (Part (KConf (CSetAttribute car "colour")) "Paint" (0, 0)%Z) 2 1 [] "").
  split; [apply one_sound; [split; quote_tac|reflexivity|reflexivity|quote_tac]|]. split; [|vm_compute; reflexivity].
  intros a b Ia Ib E. cbn in Ia, Ib.
  destruct Ia as [<-|[<-|[<-|[<-|[]]]]], Ib as [<-|[<-|[<-|[<-|[]]]]]; cbn in E; try discriminate; reflexivity.
Qed.

(** Deprecated displays: no script, or one that names a class it does not import. *)
Theorem C49_deprecated_refuted :
  (forall v selector load name pos i o l dc, to_script (one (Part (KConf (COldView v selector load)) name pos) (S i) (S o) l dc) = Err AttributeError)
  /\ exists w, to_script w <> Err AttributeError /\ rerun w = Err NameError
     /\ parts w = [Part (KConf (COldMultiPlot ["mass"; "price"] true)) "Plot" (0, 0)%Z].
Proof.
  split.
  - intros v selector load name pos i o l dc. unfold to_script, one.
    rewrite (generated 0 _ _ _ _ _ (S i)) by reflexivity.
    assert (E : exists a, variable_indices (mkWf [mkBlock (seq 0 (S i)) (seq (S i) (S o))] [] (Some (S i))) (S i) = Ok a).
    { destruct (output_address (mkWf [mkBlock (seq 0 (S i)) (seq (S i) (S o))] [] (Some (S i)))) with (f := fun v : nat => v) (o := S i) as [b [k [E _]]];
        [|reflexivity|eauto].
      split; cbn [block_variables blocks flat_map b_in b_out pipes output map]; try (intros; contradiction).
      - rewrite app_nil_r. change (seq (S i) (S o)) with (seq (0 + S i) (S o)). rewrite <- seq_app. apply seq_NoDup.
      - constructor.
      - intros x Ex. inversion Ex; subst. eexists. split; [left; reflexivity|]. cbn. auto. }
    destruct E as [a ->]. reflexivity.
  - exists (one (Part (KConf (COldMultiPlot ["mass"; "price"] true)) "Plot" (0, 0)%Z) 1 1 [] ""). vm_compute. repeat split. discriminate.
Qed.

(** ConcatenateStrings comes back at (0, 0). *)
Theorem C49_position_refuted : exists w w', sound params_ex (fun s => s) w /\ rerun w = Ok w'
  /\ parts w = [Part (KConf (CConcatStrings 2 "-")) "Join" (7, 9)%Z] /\ parts w' = [Part (KConf (CConcatStrings 2 "-")) "Join" (0, 0)%Z].
Proof.
  eexists (one (Part (KConf (CConcatStrings 2 "-")) "Join" (7, 9)%Z) 2 1 [] ""), _.
  split; [apply one_sound; [split; quote_tac|reflexivity|reflexivity|quote_tac]|]. split; [vm_compute; reflexivity|]. split; reflexivity.
Qed.

(** A ScatterView of one attribute comes back on its characters; a ParallelView of none
    comes back on an attribute without name; a ModelMethod without name gets one. *)
Theorem C49_arguments_refuted : exists w1 w1' w2 w2',
  rerun w1 = Ok w1' /\ parts w1 = [Part (KConf (CMultiObject "sel" [mkView false ["mass"] ""; mkView true [] ""] true)) "M" (0, 0)%Z]
  /\ parts w1' = [Part (KConf (CMultiObject "sel" [mkView false ["m"; "a"; "s"; "s"] ""; mkView true [""] ""] true)) "M" (0, 0)%Z]
  /\ rerun w2 = Ok w2' /\ parts w2 = [Part (KConf (CModelMethod car "drive")) "" (0, 0)%Z]
  /\ parts w2' = [Part (KConf (CModelMethod car "drive")) "Model method: drive" (0, 0)%Z].
Proof.
  eexists (one (Part (KConf (CMultiObject "sel" [mkView false ["mass"] ""; mkView true [] ""] true)) "M" (0, 0)%Z) 1 1 [] ""), _,
          (one (Part (KConf (CModelMethod car "drive")) "" (0, 0)%Z) 3 2 [] ""), _.
  split; [vm_compute; reflexivity|]. split; [reflexivity|]. split; [reflexivity|].
  split; [vm_compute; reflexivity|]. split; reflexivity.
Qed.

(** A quote in a name breaks the script. *)
Theorem C49_quote_refuted : exists (w : @wf string) script, to_script w = Ok script /\ run_script params_ex (fun s => s) script = Err SyntaxError
  /\ parts w = [Part (KConf CFlatten) "the ""best""" (0, 0)%Z].
Proof.
  eexists (one (Part (KConf CFlatten) "the ""best""" (0, 0)%Z) 1 1 [] ""), _.
  split; [vm_compute; reflexivity|]. split; vm_compute; reflexivity.
Qed.

Example C49_filter_example : exists script,
  to_script (one (Part (KConf (CFilter [mkFilter "mass" "gt" 3 ""] "and")) "F" (0, 0)%Z) 1 1 [] "") = Ok script
  /\ run_script params_ex (fun s => s) script = Err SyntaxError.
Proof. eexists. split; vm_compute; reflexivity. Qed.

Example C49_locks_example : locks_kept params_ex (fun s => s) trip
  /\ ~ locks_kept params_ex (fun s => s) (one (Part (KConf (CInstantiate car)) "Build" (0, 0)%Z) 2 1 [0] "").
Proof.
  split.
  - cbn. repeat split; auto; intros [|[|[|[|]]]] v N L; cbn in N; inversion N; subst; cbn in L; try discriminate.
    eapply kd_conf; [reflexivity|discriminate].
  - cbn. intros [[H _] _]. specialize (H 0 0 eq_refl eq_refl). inversion H as [c n p i x N D| |]; subst. cbn in N. inversion N; subst. apply D. reflexivity.
Qed.

Example C49_names_example : map render [Sub 0 (NBlock 12); Sub 2 (NVar 3); NWfblock] = ["block_12"; "sub_sub_variable_3"; "wfblock"].
Proof. reflexivity. Qed.

Print Assumptions C49_nested_documentation_refuted.
Print Assumptions C49_free_variable_lock_refuted.
Print Assumptions C49_default_refuted.
Print Assumptions C49_lock_refuted.
Print Assumptions C49_same_name_refuted.
Print Assumptions C49_set_attribute_refuted.
Print Assumptions C49_deprecated_refuted.
Print Assumptions C49_position_refuted.
Print Assumptions C49_arguments_refuted.
Print Assumptions C49_quote_refuted.

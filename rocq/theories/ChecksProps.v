(** C17, C18: checks, validity and schemas. *)
From Coq Require Import String List Bool Arith Lia.
From Verif Require Import Base ChecksModel.
Import ListNotations.
Open Scope string_scope.
Open Scope list_scope.
Open Scope nat_scope.

(** ** C17 *)

(** levels, from the least to the most severe *)
Definition levels := ["debug"; "info"; "warning"; "error"].
Definition severity (s : string) : nat :=
  match s with "debug" => 0 | "info" => 1 | "warning" => 2 | _ => 3 end.
Definition at_least (lvl : string) (c : check) : bool := severity lvl <=? severity (level c).
Definition known (c : check) : Prop := In (level c) levels.

Lemma level_known s : In s levels -> level_to_int s = Ok (severity s).
Proof. simpl. intuition; subst; reflexivity. Qed.

Lemma level_unknown s : ~ In s levels -> level_to_int s = Err KeyError.
Proof.
  intros H. unfold level_to_int, levels in *. simpl in H.
  repeat (match goal with |- context [String.eqb s ?x] => destruct (String.eqb_spec s x); [subst; tauto|] end). auto.
Qed.

Lemma above_spec lvl checks : In lvl levels -> Forall known checks ->
  forall acc, foldM (fun checks c => let* a := level_to_int (level c) in let* b := level_to_int lvl in
           Ok (if b <=? a then checks ++ [c] else checks)) checks acc = Ok (acc ++ filter (at_least lvl) checks).
Proof.
  intros Hl. induction 1 as [|c checks Hc _ IH]; intros acc; cbn [foldM filter]; [rewrite app_nil_r; auto|].
  assert (E : (let* a := level_to_int (level c) in let* b := level_to_int lvl in Ok (if b <=? a then acc ++ [c] else acc))
              = Ok (if at_least lvl c then acc ++ [c] else acc))
    by (rewrite (level_known _ Hc), (level_known _ Hl); auto).
  rewrite E. cbn [bind]. rewrite IH. destruct (at_least lvl c); auto. rewrite <- app_assoc. auto.
Qed.

(** The checks above a level are those at least as severe, in order. *)
Theorem C17_filter : forall checks lvl, In lvl levels -> Forall known checks ->
  checks_above_level checks lvl = Ok (filter (at_least lvl) checks).
Proof. intros checks lvl Hl Hk. unfold checks_above_level. rewrite (above_spec lvl checks Hl Hk). auto. Qed.

(** An unknown level is an error, but goes unnoticed on an empty list. *)
Theorem C17_unknown_level : forall checks lvl, ~ In lvl levels -> Forall known checks ->
  checks_above_level checks lvl = match checks with [] => Ok [] | _ => Err KeyError end.
Proof.
  intros [|c checks] lvl Hl Hk; auto. inversion Hk as [|? ? Hc Hk']. subst.
  unfold checks_above_level. simpl. rewrite (level_known _ Hc), (level_unknown _ Hl). auto.
Qed.

(** Raising the level takes checks away, never adds one. *)
Theorem C17_monotone : forall checks low high, In low levels -> In high levels -> Forall known checks ->
  severity low <= severity high ->
  exists at_low at_high, checks_above_level checks low = Ok at_low /\ checks_above_level checks high = Ok at_high
  /\ at_high = filter (at_least high) at_low.
Proof.
  intros checks low high Hl Hh Hk H. exists (filter (at_least low) checks), (filter (at_least high) checks).
  rewrite !C17_filter by auto. split; auto. split; auto. clear Hk.
  induction checks as [|c checks IH]; simpl; auto.
  destruct (at_least low c) eqn:L; simpl; destruct (at_least high c) eqn:U; rewrite ?IH; auto.
  unfold at_least in *. apply Nat.leb_le in U. apply Nat.leb_gt in L. lia.
Qed.

(** An exception is raised exactly when some check is at least as severe. *)
Theorem C17_raise : forall checks lvl, In lvl levels -> Forall known checks ->
  (raise_if_above_level checks lvl = Err ValueError /\ exists c, In c checks /\ severity lvl <= severity (level c))
  \/ (raise_if_above_level checks lvl = Ok tt /\ forall c, In c checks -> severity (level c) < severity lvl).
Proof.
  intros checks lvl Hl Hk. unfold raise_if_above_level. rewrite C17_filter by auto. simpl.
  destruct (filter (at_least lvl) checks) as [|c l] eqn:E.
  - right. split; auto. intros c Hc. destruct (Nat.ltb_spec (severity (level c)) (severity lvl)); auto.
    assert (I : In c (filter (at_least lvl) checks)) by (apply filter_In; split; auto; apply Nat.leb_le; auto).
    rewrite E in I. destruct I.
  - left. split; auto. exists c. assert (I : In c (filter (at_least lvl) checks)) by (rewrite E; simpl; auto).
    apply filter_In in I. destruct I as [I A]. apply Nat.leb_le in A. auto.
Qed.

(** Filtering a sum is summing what is filtered. *)
Theorem C17_add : forall a b lvl, In lvl levels -> Forall known a -> Forall known b ->
  exists x y, checks_above_level a lvl = Ok x /\ checks_above_level b lvl = Ok y
  /\ checks_above_level (add_checks a b) lvl = Ok (x ++ y).
Proof.
  intros a b lvl Hl Ha Hb. exists (filter (at_least lvl) a), (filter (at_least lvl) b).
  rewrite !C17_filter; auto.
  - unfold add_checks. rewrite filter_app. auto.
  - apply Forall_app. auto.
Qed.

(** A type check fails exactly when the value is not an instance of the type. *)
Theorem C17_type_check : forall value (isinstance : value -> class -> bool) v t lvl,
  raise_if_above_level (type_check value isinstance v t lvl) "error"
  = if isinstance v t then Ok tt else Err ValueError.
Proof.
  intros value isinstance v t lvl. unfold type_check, is_builtin.
  destruct t; destruct (isinstance v _); simpl; auto. destruct (String.eqb lvl "info"); reflexivity.
Qed.

(** Successes are reported at level info for classes; for built-in types they never are. *)
Theorem C17_type_check_info_refuted : forall value (isinstance : value -> class -> bool) v,
  (forall name, isinstance v (Class name) = true ->
     type_check value isinstance v (Class name) "info" = [PassedCheck])
  /\ (forall t, In t [Int; Float; Str] -> isinstance v t = true ->
     type_check value isinstance v t "info" = []).
Proof.
  intros value isinstance v. split.
  - intros name H. unfold type_check. rewrite H. auto.
  - intros t [<-|[<-|[<-|[]]]] H; unfold type_check, is_builtin; rewrite H; auto.
Qed.

(** An object is valid at level error, and at level warning, exactly when it goes through the
    platform: read back and copied equal, valid document, displays and schemas computed and
    written. *)
Theorem C17_valid : forall p a b lvl, serialized_equal p = Ok a -> copied_equal p = Ok b ->
  lvl = "error" \/ lvl = "warning" ->
  is_valid p lvl = Ok (a && b && bson_valid p && displays_computed p && displays_dumped p
                       && schemas_computed p && schemas_dumped p).
Proof.
  intros p a b lvl Ha Hb H. unfold is_valid, check_list, check_platform, add_checks. rewrite Ha, Hb. simpl.
  unfold equality_check, two_steps_check.
  destruct H as [-> | ->]; destruct a, b, (bson_valid p), (displays_computed p), (displays_dumped p),
    (schemas_computed p), (schemas_dumped p); reflexivity.
Qed.

(** At level info or debug no object is valid: the checks it passes count against it. *)
Theorem C17_info_refuted : forall p lvl, lvl = "info" \/ lvl = "debug" ->
  is_valid p lvl <> Ok true.
Proof.
  intros p lvl H. unfold is_valid, check_list, check_platform, add_checks.
  destruct (serialized_equal p) as [a|e]; simpl; [|congruence]. destruct (copied_equal p) as [b|e]; simpl; [|congruence].
  unfold equality_check, two_steps_check.
  destruct H as [-> | ->]; destruct a, b, (bson_valid p), (displays_computed p), (displays_dumped p),
    (schemas_computed p), (schemas_dumped p); simpl; congruence.
Qed.

(** What raises while reading back or copying is not turned into a check. *)
Theorem C17_raises : forall p lvl e,
  serialized_equal p = Err e \/ (exists b, serialized_equal p = Ok b) /\ copied_equal p = Err e ->
  is_valid p lvl = Err e.
Proof.
  intros p lvl e [H|[[b H] H']]; unfold is_valid, check_list, check_platform; rewrite H; simpl; auto.
  rewrite H'. auto.
Qed.

(** ** C18 *)

Lemma collection_keeps attributes : forall h issues h', collection_check_list h attributes issues = Ok h' ->
  List.length h <= List.length h' /\ forall l, l < List.length h -> read h' l = read h l.
Proof.
  induction attributes as [|[a d] attributes IH]; intros h issues h' H; simpl in H.
  - injection H as <-. split; auto.
  - destruct (property_check_list a d) as [checks|e]; [|discriminate]. simpl in H. apply IH in H.
    rewrite !app_length in H. simpl in H. destruct H as [H1 H2]. split; [lia|]. intros l Hl.
    rewrite H2 by lia. unfold read. rewrite app_nth1 by (rewrite app_length; simpl; lia).
    apply app_nth1. auto.
Qed.

Lemma collection_outcome attributes : forall h issues,
  (exists h', collection_check_list h attributes issues = Ok h')
  \/ exists a d e, In (a, d) attributes /\ property_check_list a d = Err e
     /\ collection_check_list h attributes issues = Err e.
Proof.
  induction attributes as [|[a d] attributes IH]; intros h issues; simpl; [eauto|].
  destruct (property_check_list a d) as [checks|e] eqn:E; simpl; [|right; exists a, d, e; auto].
  destruct (IH ((h ++ [checks]) ++ [add_checks (read (h ++ [checks]) issues) (read (h ++ [checks]) (List.length h))])
              (List.length (h ++ [checks]))) as [[h' H]|(a' & d' & e & I & E' & H)]; [left; eauto|].
  right. exists a', d', e. auto.
Qed.

(** Whatever the attributes, when the schema has a check list it is empty and the schema is
    declared valid.  Otherwise checking one of the attributes raises. *)
Theorem C18_empty_refuted : forall steps,
  (schema_check_list steps = Ok [] /\ schema_is_valid steps = Ok true)
  \/ exists step a d e, In step steps /\ In (a, d) step /\ property_check_list a d = Err e
     /\ schema_check_list steps = Err e.
Proof.
  intros steps. unfold schema_is_valid, schema_check_list.
  assert (G : forall steps h, 0 < List.length h ->
    (exists h', foldM (fun h step => collection_check_list h step 0) steps h = Ok h' /\ read h' 0 = read h 0)
    \/ exists step a d e, In step steps /\ In (a, d) step /\ property_check_list a d = Err e
       /\ foldM (fun h step => collection_check_list h step 0) steps h = Err e).
  { clear steps. induction steps as [|step steps IH]; intros h Hh; simpl; [left; eauto|].
    destruct (collection_outcome step h 0) as [[h1 H1]|(a & d & e & I & E & H1)]; rewrite H1; simpl.
    - apply collection_keeps in H1. destruct H1 as [L K].
      destruct (IH h1) as [(h' & H' & R)|(step' & a & d & e & Is & I & E & H')]; [lia| |].
      + left. exists h'. split; auto. rewrite R. apply K. auto.
      + right. exists step', a, d, e. auto.
    - right. exists step, a, d, e. auto. }
  destruct (G steps [[]]) as [(h' & H' & R)|(step & a & d & e & Is & I & E & H')]; [simpl; lia| |].
  - left. rewrite H'. simpl. rewrite R. split; reflexivity.
  - right. exists step, a, d, e. rewrite H'. auto.
Qed.

(** whether a check list has an error *)
Definition reports_error (r : res (list check)) : Prop :=
  exists checks c, r = Ok checks /\ In c checks /\ level c = "error".

(** What the check of an attribute would report: a class that is not a DessiaObject, a union
    of classes some of which are standalone and some not, a wrong number of arguments, keys
    that are not strings or values that are not built-in. *)
Theorem C18_property_errors : forall a d,
  reports_error (property_check_list a d) <->
  match a with
  | TClass dessia _ => dessia = false
  | TUnion args => (forall x, In x args -> exists s, x = TClass true s)
                   /\ In (TClass true true) args /\ In (TClass true false) args
  | TTuple args => args = [] \/ (In None args /\ List.length args <> 2)
  | TList args | TInstanceOf args | TType args => List.length args <> 1
  | TDict args => exists k v, args = [k; v]
                  /\ ((is_subclass_of_str k = Ok false)
                      \/ (is_subclass_of_str k = Ok true /\ is_simple v = false))
  | _ => False
  end.
Proof.
  assert (Pass : level PassedCheck <> "error") by (simpl; congruence).
  assert (Warn : level CheckWarning <> "error") by (simpl; congruence).
  assert (One : forall c, reports_error (Ok [c]) <-> level c = "error").
  { intros c. split; [intros (l & x & E & I & H); injection E as <-; destruct I as [<-|[]]; auto|intros H; exists [c], c; simpl; auto]. }
  unfold reports_error.
  intros a d. destruct a as [b| | |dessia s|args|args|args|args|args|args]; simpl.
  - split; [intros (l & c & E & H & _); injection E as <-; destruct H|tauto].
  - split; [intros (l & c & E & H & _); injection E as <-; destruct H|tauto].
  - split; [|tauto]. intros (l & c & E & H & Hl). injection E as <-. destruct H as [<-|[]]. destruct d; simpl in Hl; congruence.
  - split.
    + intros (l & c & E & H & Hl); injection E as <-. destruct H as [<-|[]]. destruct dessia; simpl in *; congruence.
    + intros ->. eexists. eexists. split; [reflexivity|]. simpl. auto.
  - assert (G : forall flags, mapM standalone_in_db args = Ok flags ->
              (forall x, In x args -> exists s, x = TClass true s)
              /\ (forall s, In (TClass true s) args <-> In s flags)).
    { clear. induction args as [|x args IH]; intros flags H; simpl in H.
      - injection H as <-. split; [intros x []|simpl; tauto].
      - destruct x as [ | | |[] s| | | | | | ]; simpl in H; try discriminate.
        destruct (mapM standalone_in_db args) as [f|e]; simpl in H; [|discriminate]. injection H as <-.
        destruct (IH f eq_refl) as [I1 I2]. split.
        + intros y [<-|Hy]; eauto.
        + intros s'. simpl. rewrite I2. split; intros [E|E]; auto; left; congruence. }
    assert (E : (exists e, mapM standalone_in_db args = Err e /\ exists x, In x args /\ forall s, x <> TClass true s)
                \/ exists flags, mapM standalone_in_db args = Ok flags).
    { clear. induction args as [|x args IH]; simpl; [eauto|].
      destruct x as [ | | |[] s| | | | | | ]; simpl;
        try (left; eexists; split; [reflexivity|]; eexists; split; [left; reflexivity|]; congruence).
      destruct IH as [(e & H & x & Hx & N)|[f H]]; rewrite H; simpl; [|eauto].
      left. exists e. split; auto. exists x. auto. }
    destruct E as [(e & H & x & Hx & N)|[flags H]]; rewrite H; simpl.
    + split; [intros (l & c & E & _); discriminate|]. intros (A & _). destruct (A x Hx) as [s ->]. exfalso. apply (N s). auto.
    + destruct (G flags H) as [G1 G2].
      assert (T : (if forallb (fun b => b) flags then PassedCheck
                   else if negb (existsb (fun b => b) flags) then PassedCheck else Failed "WrongType")
                  = if negb (forallb (fun b => b) flags) && existsb (fun b => b) flags then Failed "WrongType" else PassedCheck).
      { destruct (forallb _ flags), (existsb _ flags); auto. }
      rewrite T. fold (reports_error (Ok [if negb (forallb (fun b => b) flags) && existsb (fun b => b) flags then Failed "WrongType" else PassedCheck])).
      rewrite One.
      assert (Et : existsb (fun b : bool => b) flags = true <-> In true flags).
      { rewrite existsb_exists. split; [intros (x & I & ->); auto|eauto]. }
      assert (Ef : forallb (fun b : bool => b) flags = false <-> In false flags).
      { split.
        - intros F. destruct (in_dec bool_dec false flags) as [I|I]; auto. exfalso.
          assert (forallb (fun b : bool => b) flags = true); [|congruence]. apply forallb_forall.
          intros [|] Hx; auto.
        - intros I. destruct (forallb _ flags) eqn:F; auto. rewrite forallb_forall in F. apply F in I. discriminate. }
      rewrite !G2, <- Et, <- Ef.
      destruct (forallb _ flags), (existsb _ flags); simpl; split; intuition congruence.
  - split.
    + intros (l & c & E & H & Hl). injection E as <-. simpl in H. destruct H as [<-|[<-|[]]].
      * destruct args; simpl in Hl; [auto|congruence].
      * destruct (existsb _ args) eqn:X; simpl in Hl; [|congruence].
        destruct (Nat.eqb_spec (List.length args) 2); simpl in Hl; [congruence|]. right. split; auto.
        apply existsb_exists in X. destruct X as ([x|] & I & N); [discriminate|auto].
    + intros [->|[I N]].
      * eexists. eexists. split; [reflexivity|]. simpl. split; [left; reflexivity|auto].
      * eexists. eexists. split; [reflexivity|]. split; [right; left; reflexivity|].
        assert (existsb (fun a => match a with None => true | Some _ => false end) args = true) as ->
          by (apply existsb_exists; exists None; auto).
        destruct (Nat.eqb_spec (List.length args) 2); [congruence|]. auto.
  - split.
    + intros (l & c & E & H & Hl). injection E as <-. destruct H as [<-|[<-|[]]]; [|simpl in Hl; congruence].
      unfold has_one_arg in Hl. destruct (Nat.eqb_spec (List.length args) 1); simpl in *; congruence.
    + intros N. eexists. eexists. split; [reflexivity|]. split; [left; reflexivity|]. unfold has_one_arg.
      destruct (Nat.eqb_spec (List.length args) 1); [congruence|auto].
  - split.
    + intros (l & c & E & H & Hl). destruct args as [|k [|v [|w args]]]; try discriminate. exists k, v. split; auto.
      destruct (is_subclass_of_str k) as [b|e]; simpl in E; [|discriminate]. injection E as <-.
      destruct b; [right; split; auto|auto].
      destruct (is_simple v); auto. simpl in H. destruct H as [<-|[<-|[<-|[<-|[]]]]]; simpl in Hl; congruence.
    + intros (k & v & -> & [H|[H V]]); rewrite H; simpl; eexists; eexists; (split; [reflexivity|]).
      * split; [right; left; reflexivity|auto].
      * rewrite V. split; [right; right; left; reflexivity|auto].
  - fold (reports_error (Ok [has_one_arg args])). rewrite One. unfold has_one_arg.
    destruct (Nat.eqb_spec (List.length args) 1); simpl; intuition congruence.
  - fold (reports_error (Ok [has_one_arg args])). rewrite One. unfold has_one_arg.
    destruct (Nat.eqb_spec (List.length args) 1); simpl; intuition congruence.
Qed.

(** A file with a default value, None included, is a warning, and nothing else is. *)
Theorem C18_file_default : forall a d,
  (exists checks c, property_check_list a d = Ok checks /\ In c checks /\ level c = "warning")
  <-> a = TFile /\ d <> Undefined.
Proof.
  intros a d. split.
  - intros (l & c & E & H & Hl). destruct a as [b| | |dessia s|args|args|args|args|args|args]; simpl in E.
    1,2: injection E as <-; destruct H.
    + injection E as <-. destruct H as [<-|[]]. split; auto. intros ->. discriminate.
    + injection E as <-. destruct H as [<-|[]]. destruct dessia; discriminate.
    + destruct (mapM standalone_in_db args) as [flags|e]; simpl in E; [|discriminate]. injection E as <-.
      destruct H as [<-|[]]. destruct (forallb (fun b => b) flags); [discriminate|].
      destruct (existsb (fun b => b) flags); discriminate.
    + injection E as <-. destruct H as [<-|[<-|[]]]; [destruct args; discriminate|].
      destruct (existsb _ args && _); discriminate.
    + injection E as <-. unfold has_one_arg in H. destruct H as [<-|[<-|[]]]; [|discriminate].
      destruct (List.length args =? 1); discriminate.
    + destruct args as [|k [|v [|w args]]]; try discriminate.
      destruct (is_subclass_of_str k) as [b|e]; simpl in E; [|discriminate]. injection E as <-.
      destruct H as [<-|[<-|[<-|[<-|[]]]]]; try destruct b; try destruct (is_simple v); discriminate.
    + injection E as <-. unfold has_one_arg in H. destruct H as [<-|[]]. destruct (List.length args =? 1); discriminate.
    + injection E as <-. unfold has_one_arg in H. destruct H as [<-|[]]. destruct (List.length args =? 1); discriminate.
  - intros [-> N]. simpl. exists [CheckWarning], CheckWarning. destruct d; [congruence| |]; simpl; auto.
Qed.

(** The default value of a list or dictionary is never an issue, although the check is there
    for it. *)
Theorem C18_mutable_default_refuted : forall args d,
  property_check_list (TList args) d = property_check_list (TList args) Undefined
  /\ property_check_list (TDict args) d = property_check_list (TDict args) Undefined.
Proof. intros args d. split; reflexivity. Qed.

(** A dictionary without exactly two arguments is never reported: reading its arguments
    raises. *)
Theorem C18_dict_arguments_refuted : forall args d, List.length args <> 2 ->
  property_check_list (TDict args) d = Err ValueError.
Proof. intros [|a [|b [|c args]]] d H; simpl in *; auto. congruence. Qed.

(** What is inside a list or a tuple is never looked at: its own check may report errors or raise. *)
Theorem C18_inside_refuted : forall a l d,
  (forall c checks, property_check_list (TList [a]) d = Ok checks -> In c checks -> c = PassedCheck)
  /\ (forall c checks, property_check_list (TTuple (map Some (a :: l))) d = Ok checks -> In c checks -> c = PassedCheck)
  /\ (exists checks, property_check_list (TList [a]) d = Ok checks)
  /\ (exists checks, property_check_list (TTuple (map Some (a :: l))) d = Ok checks).
Proof.
  intros a l d.
  assert (E : existsb (fun a : option annotation => match a with None => true | Some _ => false end) (map Some (a :: l)) = false).
  { induction (a :: l) as [|b m IH]; [reflexivity|exact IH]. }
  assert (T : property_check_list (TTuple (map Some (a :: l))) d = Ok [PassedCheck; PassedCheck]).
  { unfold property_check_list. rewrite E. reflexivity. }
  assert (L : property_check_list (TList [a]) d = Ok [PassedCheck; PassedCheck]) by reflexivity.
  rewrite T, L. repeat split; try (eexists; reflexivity).
  - intros c checks K I. injection K as <-. destruct I as [<-|[<-|[]]]; reflexivity.
  - intros c checks K I. injection K as <-. destruct I as [<-|[<-|[]]]; reflexivity.
Qed.

(** List[Dict[int, Part]] passes the checks, Dict[int, Part] has two errors, and checking Dict raises. *)
Example C18_inside_example :
  let ints := TDict [TBuiltin false; TClass true true] in
  property_check_list ints Undefined = Ok [PassedCheck; Failed "WrongType"; Failed "WrongType"; PassedCheck]
  /\ property_check_list (TList [ints]) Undefined = Ok [PassedCheck; PassedCheck]
  /\ property_check_list (TTuple [Some (TDict []); Some ints]) Undefined = Ok [PassedCheck; PassedCheck].
Proof. repeat split; reflexivity. Qed.

Print Assumptions C17_filter.
Print Assumptions C17_unknown_level.
Print Assumptions C17_monotone.
Print Assumptions C17_raise.
Print Assumptions C17_add.
Print Assumptions C17_type_check.
Print Assumptions C17_type_check_info_refuted.
Print Assumptions C17_valid.
Print Assumptions C17_info_refuted.
Print Assumptions C17_raises.
Print Assumptions C18_empty_refuted.
Print Assumptions C18_property_errors.
Print Assumptions C18_file_default.
Print Assumptions C18_mutable_default_refuted.
Print Assumptions C18_dict_arguments_refuted.
Print Assumptions C18_inside_refuted.

(** ** Examples *)

Example C17_filter_example :
  checks_above_level [PassedCheck; Failed "BadType"; CheckWarning; Failed "NonCopyable"] "warning"
  = Ok [Failed "BadType"; CheckWarning; Failed "NonCopyable"]
  /\ checks_above_level [PassedCheck; CheckWarning] "fatal" = Err KeyError.
Proof. split; reflexivity. Qed.

Example C17_valid_example :
  let good := {| serialized_equal := Ok true; copied_equal := Ok true; bson_valid := true;
                 displays_computed := true; displays_dumped := true; schemas_computed := true; schemas_dumped := true |} in
  is_valid good "error" = Ok true /\ is_valid good "info" = Ok false.
Proof. split; reflexivity. Qed.

(** a class that is not a DessiaObject, a bare list: one error each, none in the schema *)
Example C18_example :
  let attributes := [(TClass false false, Undefined); (TList [], NoneDefault); (TDict [TBuiltin true; TBuiltin false], Defined)] in
  property_check_list (TClass false false) Undefined = Ok [Failed "WrongType"]
  /\ property_check_list (TList []) NoneDefault = Ok [Failed "WrongNumberOfArguments"; PassedCheck]
  /\ schema_check_list [attributes] = Ok [] /\ schema_is_valid [attributes] = Ok true.
Proof. repeat split; reflexivity. Qed.

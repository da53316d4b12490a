(** C72: arguments of methods given by forms. *)
From Coq Require Import List String Ascii Bool Arith Lia Decimal DecimalString DecimalNat.
From Verif Require Import Base MethodsModel MethodsSpec.
Import ListNotations.
Local Open Scope string_scope.
Local Open Scope list_scope.
Local Open Scope nat_scope.

(** Different arguments have different keys. *)
Theorem C72_keys n m : key n = key m -> n = m.
Proof.
  change (str_nat n = str_nat m -> n = m). intros E. assert (U : forall n, NilZero.uint_of_string (str_nat n) = Some (Nat.to_uint n)).
  { intros k. unfold str_nat. rewrite NilZero.usu; [reflexivity|]. destruct k as [|k]; [discriminate|]. intros F. assert (G := Unsigned.of_to (S k)). rewrite F in G. discriminate. }
  assert (E' : Some (Nat.to_uint n) = Some (Nat.to_uint m)) by (rewrite <- !U, E; reflexivity). injection E' as E'. rewrite <- (Unsigned.of_to n), <- (Unsigned.of_to m), E'. reflexivity.
Qed.
Local Lemma str_nat_digit n : exists c s, str_nat n = String c s /\ digit c.
Proof.
  unfold str_nat, digit. destruct (Nat.to_uint n); cbn; eexists; eexists; (split; [reflexivity|cbn; lia]).
Qed.
Local Lemma get_in {X} (l : list (string * X)) k x : get l k = Some x -> In (k, x) l.
Proof. induction l as [|[k' x'] l IH]; cbn [get]; [discriminate|]. destruct (String.eqb_spec k' k) as [->|]; intros E; [injection E as ->; left; auto|right; auto]. Qed.
Local Lemma get_none {X} (l : list (string * X)) k : (forall x, ~ In (k, x) l) -> get l k = None.
Proof. intros H. destruct (get l k) as [x|] eqn:E; [|reflexivity]. exfalso. apply (H x). apply get_in. exact E. Qed.

Section C72.
Context {A S V : Type}.
Variable deserialize_argument : A -> S -> res V.
Notation collect := (collect deserialize_argument).
Notation dict_to_arguments := (dict_to_arguments deserialize_argument).

Local Lemma collect_ok ann (d : list (string * S)) l : forall i r, collect ann d i l = Ok r ->
  part (map fst r) l /\ forall a v, In (a, v) r <-> exists k x t, nth_error l k = Some a /\ get d (str_nat (i + k)) = Some x /\ get ann a = Some t /\ deserialize_argument t x = Ok v /\ In (a, v) r.
Proof.
  induction l as [|a l IH]; intros i r E; cbn [MethodsModel.collect] in E.
  - injection E as <-. split; [constructor|]. intros a v. split; [intros []|]. intros (k & x & t & F & _). destruct k; discriminate.
  - destruct (get d (str_nat i)) as [x|] eqn:G.
    + destruct (get ann a) as [t|] eqn:T; cbn [of_option bind] in E; [|discriminate]. destruct (deserialize_argument t x) as [v|e] eqn:D; cbn [bind] in E; [|discriminate].
      destruct (collect ann d (i + 1) l) as [rest|e] eqn:C; cbn [bind] in E; [|discriminate]. injection E as <-. destruct (IH _ _ C) as [P Q]. split; [apply part_take; exact P|].
      intros b w. split; [|intros (k & y & u & _ & _ & _ & _ & I); exact I]. intros [F|I].
      * injection F as <- <-. exists 0, x, t. rewrite Nat.add_0_r. repeat split; auto. left. auto.
      * destruct (proj1 (Q b w) I) as (k & y & u & K1 & K2 & K3 & K4 & _). exists (Datatypes.S k), y, u. replace (i + Datatypes.S k) with (i + 1 + k) by lia. repeat split; auto. right. auto.
    + destruct (IH _ _ E) as [P Q]. split; [apply part_skip; exact P|]. intros b w. split; [|intros (k & y & u & _ & _ & _ & _ & I); exact I]. intros I.
      destruct (proj1 (Q b w) I) as (k & y & u & K1 & K2 & K3 & K4 & _). exists (Datatypes.S k), y, u. replace (i + Datatypes.S k) with (i + 1 + k) by lia. repeat split; auto.
Qed.
Local Lemma collect_given ann (d : list (string * S)) l : forall i r, collect ann d i l = Ok r -> forall k a x, nth_error l k = Some a -> get d (str_nat (i + k)) = Some x ->
  exists t v, get ann a = Some t /\ deserialize_argument t x = Ok v /\ In (a, v) r.
Proof.
  induction l as [|b l IH]; intros i r E k a x N G; [destruct k; discriminate|]. cbn [MethodsModel.collect] in E. destruct k as [|k].
  - injection N as ->. rewrite Nat.add_0_r in G. rewrite G in E. destruct (get ann a) as [t|]; cbn [of_option bind] in E; [|discriminate]. destruct (deserialize_argument t x) as [v|e] eqn:D; cbn [bind] in E; [|discriminate].
    destruct (collect ann d (i + 1) l) as [rest|e]; cbn [bind] in E; [|discriminate]. injection E as <-. exists t, v. repeat split; auto. left. auto.
  - replace (i + Datatypes.S k) with (i + 1 + k) in G by lia. destruct (get d (str_nat i)) as [y|].
    + destruct (get ann b) as [t|]; cbn [of_option bind] in E; [|discriminate]. destruct (deserialize_argument t y) as [v|e]; cbn [bind] in E; [|discriminate].
      destruct (collect ann d (i + 1) l) as [rest|e] eqn:C; cbn [bind] in E; [|discriminate]. injection E as <-. destruct (IH _ _ C k a x N G) as (t' & v' & ? & ? & ?). exists t', v'. repeat split; auto. right. auto.
    + apply (IH _ _ E k a x N G).
Qed.

(** The arguments of a call, when they are found: in the order of the method, those whose number is a key of the
    dictionary, self being left out, with the value of this key read with the annotation of the argument. *)
Theorem C72_arguments cls methods (d : list (string * S)) m specs self names r : get methods m = Some specs -> args specs = self :: names -> NoDup names ->
  fst (dict_to_arguments cls methods [] d m) = Ok r ->
  part (map fst r) names /\ (forall a v, In (a, v) r <-> exists k x t, nth_error names k = Some a /\ get d (key k) = Some x /\ get (annotations specs) a = Some t /\ deserialize_argument t x = Ok v).
Proof.
  intros M Ea N E. unfold MethodsModel.dict_to_arguments in E. cbn [get] in E. rewrite M in E. cbn [fst] in E. rewrite Ea in E. cbn [tl] in E. destruct (collect_ok _ _ _ _ _ E) as [P Q].
  split; [exact P|]. intros a v. split.
  - intros I. destruct (proj1 (Q a v) I) as (k & x & t & K1 & K2 & K3 & K4 & _). exists k, x, t. auto.
  - intros (k & x & t & K1 & K2 & K3 & K4). destruct (collect_given _ _ _ _ _ E k a x K1 K2) as (t' & v' & K3' & K4' & I). rewrite K3 in K3'. injection K3' as <-. rewrite K4 in K4'. injection K4' as <-. exact I.
Qed.

(** They are found exactly when each given argument has an annotation and is read; otherwise the error is a KeyError or
    the one of the reading. *)
Theorem C72_failures cls methods (d : list (string * S)) m specs : get methods m = Some specs ->
  match fst (dict_to_arguments cls methods [] d m) with
  | Ok _ => forall k a x, nth_error (tl (args specs)) k = Some a -> get d (key k) = Some x -> exists t v, get (annotations specs) a = Some t /\ deserialize_argument t x = Ok v
  | Err e => exists k a x, nth_error (tl (args specs)) k = Some a /\ get d (key k) = Some x /\
      ((e = KeyError /\ get (annotations specs) a = None) \/ exists t, get (annotations specs) a = Some t /\ deserialize_argument t x = Err e)
  end.
Proof.
  intros M. unfold MethodsModel.dict_to_arguments. cbn [get]. rewrite M. cbn [fst]. destruct (collect (annotations specs) d 0 (tl (args specs))) as [r|e] eqn:E.
  - intros k a x K G. destruct (collect_given _ _ _ _ _ E k a x K G) as (t & v & ? & ? & _). exists t, v. auto.
  - assert (H : forall l i, collect (annotations specs) d i l = Err e -> exists k a x, nth_error l k = Some a /\ get d (str_nat (i + k)) = Some x /\
      ((e = KeyError /\ get (annotations specs) a = None) \/ exists t, get (annotations specs) a = Some t /\ deserialize_argument t x = Err e)).
    { clear E. induction l as [|a l IH]; intros i E; cbn [MethodsModel.collect] in E; [discriminate|].
      assert (LATER : collect (annotations specs) d (i + 1) l = Err e -> exists k b x, nth_error (a :: l) k = Some b /\ get d (str_nat (i + k)) = Some x /\
        ((e = KeyError /\ get (annotations specs) b = None) \/ exists t, get (annotations specs) b = Some t /\ deserialize_argument t x = Err e)).
      { intros F. destruct (IH _ F) as (k & b & x & K1 & K2 & K3). exists (Datatypes.S k), b, x. replace (i + Datatypes.S k) with (i + 1 + k) by lia. auto. }
      destruct (get d (str_nat i)) as [x|] eqn:G; [|auto]. destruct (get (annotations specs) a) as [t|] eqn:T; cbn [of_option bind] in E.
      - destruct (deserialize_argument t x) as [v|e'] eqn:D; cbn [bind] in E.
        + destruct (collect (annotations specs) d (i + 1) l) as [rest|e'] eqn:C; cbn [bind] in E; [discriminate|]. injection E as ->. auto.
        + injection E as ->. exists 0, a, x. rewrite Nat.add_0_r. repeat split; auto. right. exists t. auto.
      - injection E as <-. exists 0, a, x. rewrite Nat.add_0_r. repeat split; auto. }
    apply (H _ 0 E).
Qed.

(** Arguments do not depend on what was asked before, and the cache stays right. *)
Theorem C72_cache cls methods cache (d : list (string * S)) m : coherent cls methods cache ->
  fst (dict_to_arguments cls methods cache d m) = fst (dict_to_arguments cls methods [] d m) /\ coherent cls methods (snd (dict_to_arguments cls methods cache d m)).
Proof.
  intros C. unfold MethodsModel.dict_to_arguments. cbn [get]. destruct (get cache (cls ++ "." ++ m)%string) as [s|] eqn:G.
  - rewrite (C m s G). auto.
  - destruct (get methods m) as [s|] eqn:M; cbn [fst snd]; [|auto]. split; [reflexivity|]. intros m' s' E. cbn [get] in E.
    destruct (String.eqb_spec (cls ++ "." ++ m)%string (cls ++ "." ++ m')%string) as [F|F]; [|apply C; exact E]. injection E as <-.
    assert (Em : m = m'). { clear -F. assert (H : forall p a b, (p ++ a)%string = (p ++ b)%string -> a = b) by (induction p as [|c p IH]; cbn; intros a b X; [auto|injection X; auto]). apply H in F. cbn in F. injection F. auto. }
    subst m'. exact M.
Qed.

(** Expected of a form: what it gives by the names of its inputs reaches the method.  All of it is ignored. *)
Theorem C72_names_refuted cls methods cache (d : list (string * S)) m specs : get methods m = Some specs -> coherent cls methods cache ->
  (forall k x, In (k, x) d -> identifier k) -> fst (dict_to_arguments cls methods cache d m) = Ok [].
Proof.
  intros M C H. rewrite (proj1 (C72_cache cls methods cache d m C)). unfold MethodsModel.dict_to_arguments. cbn [get]. rewrite M. cbn [fst].
  assert (N : forall i, get d (str_nat i) = None). { intros i. apply get_none. intros x I. destruct (H _ _ I) as (c & s & E & D). destruct (str_nat_digit i) as (c' & s' & E' & D'). rewrite E' in E. injection E as -> _. auto. }
  assert (G : forall l i, collect (annotations specs) d i l = Ok []). { induction l as [|a l IH]; intros i; cbn [MethodsModel.collect]; [reflexivity|]. rewrite N. apply IH. }
  apply G.
Qed.

(** In particular the default dictionary of a method gives it no argument. *)
Theorem C72_default_dict_refuted cls methods cache default dir allowed m (d : list (string * S)) specs : get methods m = Some specs -> coherent cls methods cache ->
  (forall a, In a (args specs) -> identifier a) -> method_dict default dir allowed methods m = Ok d ->
  map fst d = form_attributes specs /\ fst (dict_to_arguments cls methods cache d m) = Ok [].
Proof.
  intros M C I E. assert (F : map fst d = form_attributes specs).
  { unfold method_dict, method_forms in E. match type of E with context [mapM ?f ?l] => set (fn := f) in *; set (nm := l) in * end. destruct (mapM fn nm) as [forms|e] eqn:MF; cbn [bind] in E; [|discriminate].
    destruct (get forms m) as [f|] eqn:GF; cbn [of_option bind] in E; [|discriminate]. injection E as <-. rewrite map_map. cbn [fst]. rewrite map_id. apply get_in in GF. clear -GF MF M. revert forms MF GF.
    induction nm as [|n nm IH]; intros forms MF GF; cbn [mapM] in MF; [injection MF as <-; destruct GF|]. destruct (fn n) as [p|e] eqn:Fn; cbn [bind] in MF; [|discriminate].
    destruct (mapM fn nm) as [ps|e]; cbn [bind] in MF; [|discriminate]. injection MF as <-. destruct GF as [->|GF]; [|apply (IH ps eq_refl GF)]. unfold fn in Fn.
    destruct (get methods n) as [s|] eqn:Gn; cbn [of_option bind] in Fn; [|discriminate]. unfold method_form in Fn. destruct (forallb _ _); cbn [bind] in Fn; [|discriminate]. injection Fn as -> <-. rewrite M in Gn. injection Gn as <-. reflexivity. }
  split; [exact F|]. apply (C72_names_refuted cls methods cache d m specs M C). intros k x K. apply I. assert (J : In k (form_attributes specs)) by (rewrite <- F; apply (in_map fst) in K; exact K).
  apply filter_In in J. apply J.
Qed.

(** The forms of an object: the allowed methods that do not start with an underscore, in order; KeyError for others. *)
Theorem C72_forms dir allowed (methods : list (string * argspec A)) forms : method_forms dir allowed methods = Ok forms ->
  part (map fst forms) dir /\ (forall m, In m (map fst forms) <-> In m dir /\ In m allowed /\ starts_underscore m = false) /\
  forall default (m : string), ~ In m (map fst forms) -> method_dict (S := S) default dir allowed methods m = Err KeyError.
Proof.
  intros E. assert (D := E). unfold method_forms in E. match type of E with context [mapM ?f ?l] => set (fn := f) in *; set (nm := l) in * end.
  assert (K : map fst forms = nm).
  { clear D. revert forms E. induction nm as [|n nm IH]; intros forms E; cbn [mapM] in E; [injection E as <-; reflexivity|]. destruct (fn n) as [p|e] eqn:Fn; cbn [bind] in E; [|discriminate].
    destruct (mapM fn nm) as [ps|e]; cbn [bind] in E; [|discriminate]. injection E as <-. cbn [map]. rewrite (IH ps eq_refl). f_equal. unfold fn in Fn.
    destruct (get methods n) as [s|]; cbn [of_option bind] in Fn; [|discriminate]. destruct (method_form s); cbn [bind] in Fn; [|discriminate]. injection Fn as <-. reflexivity. }
  rewrite K. split; [|split].
  - unfold nm. clear. induction dir as [|n l IH]; cbn [filter]; [constructor|]. destruct (_ && _); constructor; exact IH.
  - intros m. unfold nm. rewrite filter_In, andb_true_iff, negb_true_iff. unfold memb. rewrite existsb_exists. split.
    + intros (I & U & x & X & Eq). apply String.eqb_eq in Eq. subst x. auto.
    + intros (I & X & U). repeat split; auto. exists m. rewrite String.eqb_refl. auto.
  - intros default m NI. unfold method_dict. rewrite D. cbn [bind]. rewrite get_none; [reflexivity|]. intros x I. apply NI. rewrite <- K. apply (in_map fst) in I. exact I.
Qed.

(** The first argument of a static method can not be given. *)
Theorem C72_static_refuted cls methods (d : list (string * S)) m specs a names r : get methods m = Some specs -> args specs = a :: names -> NoDup (a :: names) ->
  fst (dict_to_arguments cls methods [] d m) = Ok r -> ~ In a (map fst r).
Proof.
  intros M Ea N E I. inversion N as [|? ? NI ND]; subst. destruct (C72_arguments cls methods d m specs a names r M Ea ND E) as [P _]. apply NI. clear -P I. induction P; [destruct I|right; auto|].
  destruct I as [->|I]; [left; auto|right; auto].
Qed.

(** The inputs of a form have the numbers of the arguments as long as no name is reserved... *)
Theorem C72_numbers (specs : argspec A) self names : args specs = self :: names -> In self ["self"; "cls"] -> (forall a, In a names -> ~ In a reserved) -> form_attributes specs = names.
Proof.
  intros E Hs Hn. unfold form_attributes. rewrite E. cbn [filter]. replace (memb String.eqb self reserved) with true by (destruct Hs as [<-|[<-|[]]]; reflexivity). cbn [negb].
  clear E Hs. induction names as [|a l IH]; [reflexivity|]. cbn [filter]. destruct (memb String.eqb a reserved) eqn:M.
  - exfalso. unfold memb in M. apply existsb_exists in M. destruct M as (x & X & Eq). apply String.eqb_eq in Eq. subst x. apply (Hn a); [left; auto|exact X].
  - cbn [negb]. f_equal. apply IH. intros b I. apply Hn. right. auto.
Qed.

(** A method that is not there gives AttributeError, whatever the dictionary. *)
Theorem C72_no_method cls methods cache (d : list (string * S)) m : coherent cls methods cache -> get methods m = None -> dict_to_arguments cls methods cache d m = (Err AttributeError, cache).
Proof.
  intros C N. unfold MethodsModel.dict_to_arguments. destruct (get cache (cls ++ "." ++ m)%string) as [s|] eqn:G; [rewrite (C m s G) in N; discriminate|]. rewrite N. reflexivity.
Qed.

(** A form leaves out self, cls, progress_callback and return, no other argument. *)
Theorem C72_reserved (specs : argspec A) a : In a (form_attributes specs) <-> In a (args specs) /\ a <> "self" /\ a <> "cls" /\ a <> "progress_callback" /\ a <> "return".
Proof.
  unfold form_attributes. rewrite filter_In, negb_true_iff. unfold memb, reserved. cbn [existsb]. rewrite !orb_false_iff, !String.eqb_neq. intuition auto.
Qed.

(** A form is made exactly when each of these has an annotation; otherwise ValueError, and then no form of the object
    can be had, not even those of other methods. *)
Theorem C72_form_fails (specs : argspec A) : (method_form specs = Ok (form_attributes specs) <-> forall a, In a (form_attributes specs) -> In a (map fst (annotations specs))) /\
  (method_form specs = Err ValueError <-> exists a, In a (form_attributes specs) /\ ~ In a (map fst (annotations specs))).
Proof.
  assert (H : forall a, (match get (annotations specs) a with Some _ => true | None => false end) = true <-> In a (map fst (annotations specs))).
  { intros a. induction (annotations specs) as [|[k x] l IH]; cbn [get map fst In]; [split; [discriminate|tauto]|]. destruct (String.eqb_spec k a) as [->|N]; [split; auto|]. rewrite IH. intuition congruence. }
  unfold method_form. match goal with |- context [forallb ?F ?l] => set (f := F); destruct (forallb f l) eqn:E end.
  - assert (E' := proj1 (forallb_forall _ _) E). split; [split; [intros _ a I; apply H, (E' a I)|reflexivity]|]. split; [discriminate|]. intros (a & I & N). exfalso. apply N, H, (E' a I).
  - split; [split; [discriminate|]|split; [intros _|reflexivity]].
    + intros X. exfalso. assert (T : forallb f (form_attributes specs) = true) by (apply forallb_forall; intros a I; apply H, X, I). congruence.
    + clear -E H. induction (form_attributes specs) as [|a l IH]; [discriminate|]. cbn [forallb] in E. destruct (f a) eqn:Fa.
      * destruct (IH E) as (b & I & N). exists b. split; [right; auto|auto].
      * exists a. split; [left; auto|]. intros I. apply H in I. unfold f in Fa. congruence.
Qed.
Theorem C72_one_form_fails_refuted dir allowed (methods : list (string * argspec A)) m specs a : In m dir -> In m allowed -> starts_underscore m = false -> get methods m = Some specs ->
  In a (form_attributes specs) -> ~ In a (map fst (annotations specs)) -> forall forms, method_forms dir allowed methods <> Ok forms.
Proof.
  intros I1 I2 U G Ia Na forms E. destruct (C72_forms dir allowed methods forms E) as (_ & K & _). assert (X := proj2 (K m) (conj I1 (conj I2 U))). clear K.
  assert (F : method_form specs = Err ValueError) by (apply C72_form_fails; eauto). unfold method_forms in E. revert forms E X. match goal with |- context [mapM ?f ?l] => generalize l; set (fn := f) end.
  induction l as [|n l IH]; intros forms E X; cbn [mapM] in E; [injection E as <-; destruct X|]. destruct (fn n) as [q|e] eqn:Fn; cbn [bind] in E; [|discriminate]. destruct (mapM fn l) as [qs|e] eqn:M; cbn [bind] in E; [|discriminate]. injection E as <-.
  destruct X as [X|X]; [|apply (IH qs eq_refl X)]. unfold fn in Fn. destruct (get methods n) as [s|] eqn:Gn; cbn [of_option bind] in Fn; [|discriminate]. destruct (method_form s) as [f|e] eqn:Fs; cbn [bind] in Fn; [|discriminate]. injection Fn as <-. cbn [fst] in X. subst n. rewrite G in Gn. injection Gn as <-. congruence.
Qed.
Theorem C72_underscore m : starts_underscore m = true <-> exists r, m = ("_" ++ r)%string.
Proof.
  destruct m as [|c m]; cbn [starts_underscore]; [split; [discriminate|intros (r & E); discriminate]|]. rewrite Ascii.eqb_eq. split; [intros ->; exists m; reflexivity|]. intros (r & E). injection E. auto.
Qed.
End C72.

(** ... and those after a progress_callback are shifted. *)
Theorem C72_shift_refuted : exists (specs : argspec nat) r, nth_error (form_attributes specs) 0 = Some "x" /\
  fst (dict_to_arguments (fun (t s : nat) => Ok s) "C" [("m", specs)] [] [("0", 5)] "m") = Ok r /\ r = [("progress_callback", 5)].
Proof. exists (ArgSpec ["self"; "progress_callback"; "x"] [("progress_callback", 0); ("x", 1)]). eexists. repeat split. Qed.

Definition example_methods : list (string * argspec nat) :=
  [("run", ArgSpec ["self"; "a"; "b"; "c"] [("a", 1); ("b", 2); ("c", 3)]); ("plot", ArgSpec ["self"; "x"] [])].
Definition example_read (t s : nat) : res nat := if t <? s then Ok (10 * t + s) else Err TypeError.
Example C72_example :
  fst (dict_to_arguments example_read "pkg.C" example_methods [] [("2", 7); ("0", 4); ("b", 9); ("12", 1)] "run") = Ok [("a", 14); ("c", 37)] /\
  fst (dict_to_arguments example_read "pkg.C" example_methods [] [("1", 2)] "run") = Err TypeError /\
  fst (dict_to_arguments example_read "pkg.C" example_methods [] [("0", 2)] "plot") = Err KeyError /\
  fst (dict_to_arguments example_read "pkg.C" example_methods [] [] "fly") = Err AttributeError /\
  method_dict (fun _ => 0) ["_hidden"; "plot"; "run"] ["run"; "_hidden"] example_methods "run" = Ok [("a", 0); ("b", 0); ("c", 0)] /\
  method_dict (fun _ => 0) ["_hidden"; "plot"; "run"] ["run"; "plot"] example_methods "run" = Err ValueError.
Proof. repeat split. Qed.

Print Assumptions C72_keys.
Print Assumptions C72_arguments.
Print Assumptions C72_failures.
Print Assumptions C72_cache.
Print Assumptions C72_names_refuted.
Print Assumptions C72_default_dict_refuted.
Print Assumptions C72_forms.
Print Assumptions C72_static_refuted.
Print Assumptions C72_numbers.
Print Assumptions C72_shift_refuted.
Print Assumptions C72_no_method.
Print Assumptions C72_reserved.
Print Assumptions C72_form_fails.
Print Assumptions C72_one_form_fails_refuted.
Print Assumptions C72_underscore.

(** C08, C09: serialisation with pointers. *)
From Coq Require Import ZArith Bool String Ascii DecimalString DecimalNat Lia List.
From Verif Require Import Base BaseProofs PyValue DataSpec DataProofs PathsModel PathsSpec PathsProofs SerialModel SerialSpec SerialProofs PointersModel PointersSpec PointersProofs.
Import ListNotations.
Open Scope string_scope.
Open Scope list_scope.

Section C.
Variable non_serializable : string -> list string.
Variable jsonable : val -> bool.
Variable annotation_of_class : string -> string.
Variable standalone : string -> bool.
Variable str_key : key -> string.
Variable str_nat : nat -> string.
Variable id_name : nat -> string.
Variable same : val -> val -> bool.
Variable int_of : string -> option Z.
Variable isdigit : string -> bool.
(** str, int and uuid *)
Hypothesis str_key_str : forall s, str_key (KStr s) = s.
Hypothesis str_nat_good : forall n, good_name (str_nat n).
Hypothesis int_str_nat : forall n, int_of (str_nat n) = Some (Z.of_nat n).
Hypothesis id_name_good : forall i, good_name (id_name i).
Hypothesis id_name_inj : forall i j, id_name i = id_name j -> i = j.
Notation serialize := (serialize non_serializable jsonable annotation_of_class).
Notation to_dict := (to_dict non_serializable jsonable annotation_of_class standalone str_key str_nat id_name same int_of isdigit).
Notation occurs := (occurs non_serializable).

(** Whatever objects are held equal, an object that serialises without pointers also does
    with pointers, and then every pointer written, at any depth and also inside
    '_references', designates an entry of '_references'... *)
Theorem C08_no_dangling : forall n c d p, 2 <= n -> wf_val (VObj c d) -> good_keys (VObj c d) ->
  (forall s, In (KStr s) (map fst d) -> serialised non_serializable c (KStr s) -> attribute_name s) ->
  serialize (VObj c d) = Ok (VDict p) ->
  exists o refs, to_dict n c d = Ok (VDict o) /\ json (VDict o) /\ In (KStr "_references", VDict refs) o /\ no_dangling refs (VDict o).
Proof.
  intros n c d p L W G A S. destruct n as [|[|n]]; try lia.
  destruct (to_dict_ok non_serializable jsonable annotation_of_class standalone str_key str_nat id_name same int_of isdigit str_key_str str_nat_good int_str_nat
              id_name_good id_name_inj False (fun _ => True) (fun F => match F with end) n c d p W G A (fun F => match F with end) S)
    as [o [refs [H1 [_ [H3 [H4 [_ [_ [J _]]]]]]]]]. exists o, refs. auto.
Qed.

(** ...the keys are those of the serialisation without pointers, and '_references'... *)
Theorem C08_keys : forall n c d p o, 2 <= n -> wf_val (VObj c d) -> good_keys (VObj c d) ->
  (forall s, In (KStr s) (map fst d) -> serialised non_serializable c (KStr s) -> attribute_name s) ->
  serialize (VObj c d) = Ok (VDict p) -> to_dict n c d = Ok (VDict o) ->
  forall k, In k (map fst o) <-> k = KStr "_references" \/ In k (map fst p).
Proof.
  intros n c d p o L W G A S T. destruct n as [|[|n]]; try lia.
  destruct (to_dict_ok non_serializable jsonable annotation_of_class standalone str_key str_nat id_name same int_of isdigit str_key_str str_nat_good int_str_nat
              id_name_good id_name_inj False (fun _ => True) (fun F => match F with end) n c d p W G A (fun F => match F with end) S)
    as [o' [refs [H1 [_ [_ [_ [H5 _]]]]]]]. rewrite H1 in T. injection T as <-. exact H5.
Qed.

(** ...and, if objects held equal serialise alike, following the pointers gives back the
    serialisation without pointers: it always comes to an end and nothing is lost, added
    or exchanged. *)
Theorem C09_same_data : forall n c d p, 2 <= n -> wf_val (VObj c d) -> good_keys (VObj c d) ->
  (forall s, In (KStr s) (map fst d) -> serialised non_serializable c (KStr s) -> attribute_name s) ->
  (forall x y s t, occurs x (VObj c d) -> occurs y (VObj c d) -> same x y = true -> serialize x = Ok s -> serialize y = Ok t -> alike s t) ->
  serialize (VObj c d) = Ok (VDict p) ->
  exists o refs, to_dict n c d = Ok (VDict o) /\ In (KStr "_references", VDict refs) o
   /\ (forall k, In k (map fst o) <-> k = KStr "_references" \/ In k (map fst p))
   /\ (forall k x y, In (k, x) o -> In (k, y) p -> denotes refs x y).
Proof.
  intros n c d p L W G A AL S. destruct n as [|[|n]]; try lia.
  destruct (to_dict_ok non_serializable jsonable annotation_of_class standalone str_key str_nat id_name same int_of isdigit str_key_str str_nat_good int_str_nat
              id_name_good id_name_inj True (fun x => occurs x (VObj c d)) (fun _ => AL) n c d p W G A (fun _ x H => H) S)
    as [o [refs [H1 [_ [H3 [_ [H5 [H6 _]]]]]]]]. exists o, refs. split; [exact H1|]. split; [exact H3|]. split; [exact H5|exact (H6 I)].
Qed.

(** In particular when only identical objects are held equal. *)
Lemma json_alike s : json s -> alike s s.
Proof.
  induction s using val_ind'; intros J; inversion J as [| | | | |? F|? N F]; subst; try (apply al_leaf; exact Logic.I).
  - apply al_list. clear J. induction l as [|x l IH]; constructor; inversion H; inversion F; subst; auto.
  - constructor; [tauto|]. rewrite Forall_forall in H, F. intros k x y X Y. rewrite (keys_fun _ _ _ _ N Y X). apply (H _ X), (F _ X).
Qed.
Lemma everywhere_weaken (P Q : val -> Prop) v : (forall v, P v -> Q v) -> everywhere P v -> everywhere Q v.
Proof.
  intros H. induction v using val_ind'; intros E; inversion E; subst; constructor; auto; rewrite Forall_forall in *; auto.
Qed.
Lemma occurs_inside (P : val -> Prop) x v : occurs x v -> everywhere P v -> everywhere P x.
Proof.
  induction 1 as [|v l y S Y O IH|d k y Y O IH|c d k y Y _ O IH]; intros E; auto; apply IH.
  - pose proof (everywhere_seq _ _ _ E S) as F. rewrite Forall_forall in F. auto.
  - eapply everywhere_dict; eauto.
  - eapply everywhere_obj; eauto.
Qed.
Lemma occurs_wf x v : occurs x v -> wf_val v -> wf_val x.
Proof.
  induction 1 as [|v l y S Y O IH|d k y Y O IH|c d k y Y _ O IH]; intros E; auto; apply IH.
  - pose proof (wf_seq _ _ E S) as F. rewrite Forall_forall in F. auto.
  - eapply wf_dict_in; eauto.
  - eapply wf_obj_in; eauto.
Qed.
Theorem C09_identical : forall n c d p, 2 <= n -> wf_val (VObj c d) -> good_keys (VObj c d) ->
  (forall s, In (KStr s) (map fst d) -> serialised non_serializable c (KStr s) -> attribute_name s) ->
  (forall x y, occurs x (VObj c d) -> occurs y (VObj c d) -> same x y = true -> x = y) ->
  serialize (VObj c d) = Ok (VDict p) ->
  exists o refs, to_dict n c d = Ok (VDict o) /\ In (KStr "_references", VDict refs) o
   /\ (forall k, In k (map fst o) <-> k = KStr "_references" \/ In k (map fst p))
   /\ (forall k x y, In (k, x) o -> In (k, y) p -> denotes refs x y).
Proof.
  intros n c d p L W G A SM S. apply C09_same_data; auto. intros x y s t X Y E Sx Sy. rewrite (SM x y X Y E) in *. rewrite Sx in Sy. injection Sy as <-.
  apply json_alike. eapply serialize_json; [|eapply occurs_inside; [exact Y|]|eauto].
  - eapply occurs_wf; eauto.
  - apply everywhere_weaken with (P := good_keys_here); auto. intros v; destruct v; simpl; tauto.
Qed.
End C.
Print Assumptions C09_identical.
Print Assumptions C08_no_dangling.
Print Assumptions C08_keys.
Print Assumptions C09_same_data.

(** ** Concrete str and int: decimal notation *)
Definition dec (n : nat) : string := NilZero.string_of_uint (Nat.to_uint n).
Definition undec (s : string) : option Z := option_map (fun u => Z.of_nat (Nat.of_uint u)) (NilZero.uint_of_string s).
Lemma to_uint_nonnil n : Nat.to_uint n <> Decimal.Nil.
Proof.
  intros E. pose proof (Unsigned.of_to n) as H. rewrite E in H. simpl in H. subst n. discriminate.
Qed.
Lemma undec_dec n : undec (dec n) = Some (Z.of_nat n).
Proof. unfold undec, dec. rewrite NilZero.usu by apply to_uint_nonnil. simpl. rewrite Unsigned.of_to. reflexivity. Qed.
Lemma dec_inj n m : dec n = dec m -> n = m.
Proof. intros H. apply (f_equal undec) in H. rewrite !undec_dec in H. injection H as H. lia. Qed.
Lemma dec_good n : good_name (dec n).
Proof.
  assert (A : forall u, no_slash (NilEmpty.string_of_uint u)).
  { unfold no_slash. induction u; simpl; intuition discriminate. }
  assert (B : forall u, no_slash (NilZero.string_of_uint u) /\ NilZero.string_of_uint u <> "$ref").
  { intros u. split; [|destruct u; discriminate]. destruct u; try (apply (A (Decimal.D0 u)) || apply A).
    unfold no_slash. simpl. intuition discriminate. }
  split; apply B.
Qed.

Definition ex_str_key (k : key) : string := match k with KStr s => s | KInt z => dec (Z.to_nat z) | KOther _ => "None" end.
Definition ex_isdigit (s : string) : bool := match undec s with Some _ => true | None => false end.
(** equality of values that looks at everything, and one that does not look at names *)
Fixpoint val_eqb (names : bool) (a b : val) {struct a} : bool :=
  let fix items (d e : list (key * val)) := match d, e with
    | [], [] => true
    | (k, x) :: d', (k', y) :: e' => key_eqb k k' && ((negb names && key_eqb k (KStr "name")) || val_eqb names x y) && items d' e'
    | _, _ => false
    end in
  let fix elements (l m : list val) := match l, m with
    | [], [] => true
    | x :: l', y :: m' => val_eqb names x y && elements l' m'
    | _, _ => false
    end in
  match a, b with
  | VNone, VNone => true
  | VInt x, VInt y => Z.eqb x y
  | VStr s, VStr t => String.eqb s t
  | VList l, VList m | VTuple l, VTuple m => elements l m
  | VDict d, VDict e => items d e
  | VObj c d, VObj c' e => String.eqb c c' && items d e
  | _, _ => false
  end.
Definition ex_to_dict (alone : string -> bool) (names : bool) (c : string) (d : list (key * val)) : res val :=
  to_dict (fun _ => []) (fun _ => true) (fun n => n) alone ex_str_key dec dec (val_eqb names) undec ex_isdigit 2 c d.
Definition ex_serialize : val -> res val := serialize (fun _ => []) (fun _ => true) (fun n => n).

Definition wheel (n : string) : val := VObj "m.Wheel" [(KStr "size", VInt 4); (KStr "name", VStr n)].
Definition axle : val := VObj "m.Axle" [(KStr "wheels", VList [wheel "w"; wheel "w"]); (KStr "name", VStr "axle")].
Definition car : list (key * val) :=
  [(KStr "front", axle); (KStr "spare", wheel "w"); (KStr "parts", VDict [(KStr "axles", VList [axle])]); (KStr "name", VStr "car")].

(** The axle occurs twice, the wheel five times. *)
Example C09_example : ex_to_dict (fun _ => false) true "m.Car" car =
  Ok (VDict [(KStr "object_class", VStr "m.Car"); (KStr "name", VStr "car");
             (KStr "front", VDict [(KStr "$ref", VStr "#/_references/1")]);
             (KStr "spare", VDict [(KStr "$ref", VStr "#/_references/0")]);
             (KStr "parts", VDict [(KStr "axles", VList [VDict [(KStr "$ref", VStr "#/_references/1")]])]);
             (KStr "_references", VDict
                [(KStr "0", VDict [(KStr "object_class", VStr "m.Wheel"); (KStr "name", VStr "w"); (KStr "size", VInt 4)]);
                 (KStr "1", VDict [(KStr "object_class", VStr "m.Axle"); (KStr "name", VStr "axle");
                                   (KStr "wheels", VList [VDict [(KStr "$ref", VStr "#/_references/0")]; VDict [(KStr "$ref", VStr "#/_references/0")]])])])]).
Proof. vm_compute. reflexivity. Qed.

Lemma val_eqb_eq a : forall b, val_eqb true a b = true -> a = b.
Proof.
  assert (EL : forall l, Forall (fun a => forall b, val_eqb true a b = true -> a = b) l -> forall m,
    (fix elements (l m : list val) := match l, m with
      | [], [] => true | x :: l', y :: m' => val_eqb true x y && elements l' m' | _, _ => false end) l m = true -> l = m).
  { induction 1 as [|x l X F IH]; intros [|y m] H; try discriminate; auto. apply andb_true_iff in H. destruct H as [H1 H2]. f_equal; auto. }
  assert (IT : forall d, Forall (fun kv : key * val => forall b, val_eqb true (snd kv) b = true -> snd kv = b) d -> forall e,
    (fix items (d e : list (key * val)) := match d, e with
      | [], [] => true
      | (k, x) :: d', (k', y) :: e' => key_eqb k k' && ((negb true && key_eqb k (KStr "name")) || val_eqb true x y) && items d' e'
      | _, _ => false end) d e = true -> d = e).
  { induction 1 as [|[k x] d X F IH]; intros [|[k' y] e] H; try discriminate; auto. apply andb_true_iff in H. destruct H as [H1 H2].
    apply andb_true_iff in H1. destruct H1 as [H0 H1]. apply key_eqb_eq in H0. simpl in H1, X. f_equal; auto. rewrite (X y H1). congruence. }
  induction a using val_ind'; intros v E; destruct v; try discriminate E; auto; simpl in E.
  - apply Z.eqb_eq in E. congruence.
  - apply String.eqb_eq in E. congruence.
  - f_equal. apply EL; auto.
  - f_equal. apply EL; auto.
  - f_equal. apply IT; auto.
  - apply andb_true_iff in E. destruct E as [E1 E2]. apply String.eqb_eq in E1. f_equal; auto.
Qed.

Ltac good_names := simpl; intros k HK; repeat destruct HK as [<-|HK]; try contradiction; eexists; (split; [reflexivity|]);
  repeat split; try discriminate; unfold no_slash; simpl; intuition discriminate.
Lemma wheel_good : good_keys (wheel "w").
Proof.
  apply ev_obj; [split; [good_names|simpl; eauto]|]. repeat constructor.
Qed.
Lemma axle_good : good_keys axle.
Proof.
  apply ev_obj; [split; [good_names|simpl; eauto]|]. apply Forall_cons; simpl.
  - apply ev_list; [exact I|]. repeat (apply Forall_cons; [apply wheel_good|]). constructor.
  - repeat constructor.
Qed.
Lemma car_good : good_keys (VObj "m.Car" car).
Proof.
  apply ev_obj; [split; [good_names|simpl; eauto 10]|]. apply Forall_cons; [apply axle_good|]. apply Forall_cons; [apply wheel_good|].
  apply Forall_cons; simpl.
  - apply ev_dict; [good_names|]. apply Forall_cons; [|constructor]. simpl. apply ev_list; [exact I|]. apply Forall_cons; [apply axle_good|constructor].
  - repeat constructor.
Qed.
Lemma car_names : forall s, In (KStr s) (map fst car) -> serialised (fun _ => []) "m.Car" (KStr s) -> attribute_name s.
Proof.
  simpl. intros s H _. repeat destruct H as [H|H]; try contradiction; injection H as <-; do 2 eexists; (split; [reflexivity|split; discriminate]).
Qed.
(** The theorems apply to the car. *)
Example C09_applies : exists p o refs, ex_serialize (VObj "m.Car" car) = Ok (VDict p) /\ ex_to_dict (fun _ => true) true "m.Car" car = Ok (VDict o)
  /\ In (KStr "_references", VDict refs) o /\ forall k x y, In (k, x) o -> In (k, y) p -> denotes refs x y.
Proof.
  assert (exists p, ex_serialize (VObj "m.Car" car) = Ok (VDict p)) as [p P] by (eexists; vm_compute; reflexivity).
  destruct (C09_identical (fun _ => []) (fun _ => true) (fun n => n) (fun _ => true) ex_str_key dec dec (val_eqb true) undec ex_isdigit
    (fun _ => eq_refl) dec_good undec_dec dec_good dec_inj 2 "m.Car" car p) as [o [refs [H1 [H2 [_ H3]]]]].
  - auto.
  - repeat (econstructor; simpl; try (intuition discriminate)).
  - apply car_good.
  - apply car_names.
  - intros x y _ _. apply val_eqb_eq.
  - exact P.
  - exists p, o, refs. auto.
Qed.

(** Two wheels of different names that are otherwise equal become one: the spare wheel
    has the name of another. *)
Theorem C09_names_refuted : exists c d p o refs, wf_val (VObj c d) /\ ex_serialize (VObj c d) = Ok (VDict p)
  /\ ex_to_dict (fun _ => false) false c d = Ok (VDict o) /\ In (KStr "_references", VDict refs) o
  /\ exists x y, In (KStr "spare", x) o /\ In (KStr "spare", y) p /\ ~ denotes refs x y.
Proof.
  exists "m.Car", [(KStr "first", wheel "used"); (KStr "spare", wheel "new"); (KStr "name", VStr "car")]. do 3 eexists.
  split; [repeat (econstructor; simpl; try (intuition discriminate))|]. split; [vm_compute; reflexivity|]. split; [vm_compute; reflexivity|].
  split; [simpl; eauto 10|]. do 2 eexists. split; [simpl; eauto 10|]. split; [simpl; eauto 10|].
  intros D. inversion D as [v L|l m F|d e N NR K F|d id x s N I R D']; subst; [apply NR; simpl; auto|].
  simpl in I. destruct I as [I|[]]. injection I as I. subst id. simpl in R. destruct R as [R|[]]. injection R as <-.
  inversion D' as [v L|l m F|d e N' NR K F|d id x s N' I' R' D'']; subst.
  - assert (B : denotes [(KStr "0", VDict [(KStr "object_class", VStr "m.Wheel"); (KStr "name", VStr "used"); (KStr "size", VInt 4)])] (VStr "used") (VStr "new")).
    { apply (F (KStr "name")); simpl; auto. }
    inversion B.
  - simpl in I'. intuition discriminate.
Qed.

(** An object repeated under an integer key is left where it was, and also designated
    under a key that did not exist, the number written as a string. *)
Theorem C09_int_key_refuted : exists c d p o refs, wf_val (VObj c d) /\ ex_serialize (VObj c d) = Ok (VDict p)
  /\ ex_to_dict (fun _ => false) true c d = Ok (VDict o) /\ In (KStr "_references", VDict refs) o
  /\ exists x y, In (KStr "by_number", x) o /\ In (KStr "by_number", y) p /\ ~ denotes refs x y.
Proof.
  exists "m.Car", [(KStr "by_number", VDict [(KInt 1, wheel "w"); (KInt 2, wheel "w")]); (KStr "name", VStr "car")]. do 3 eexists.
  split; [repeat (econstructor; simpl; try (intuition discriminate))|]. split; [vm_compute; reflexivity|]. split; [vm_compute; reflexivity|].
  split; [simpl; eauto 10|]. do 2 eexists. split; [simpl; eauto 10|]. split; [simpl; eauto 10|].
  intros D. inversion D as [v L|l m F|d e N NR K F|d id x s N I R D']; subst.
  - specialize (K (KStr "1")). simpl in K. intuition discriminate.
  - simpl in I. intuition discriminate.
Qed.

(** A repeated object under a key with a slash makes serialisation fail. *)
Theorem C08_slash_refuted : exists c d p, wf_val (VObj c d) /\ ex_serialize (VObj c d) = Ok (VDict p)
  /\ ex_to_dict (fun _ => false) true c d = Err ExtractionError.
Proof.
  exists "m.Car", [(KStr "speeds", VDict [(KStr "km/h", VList [wheel "w"; wheel "w"])]); (KStr "name", VStr "car")]. eexists.
  split; [repeat (econstructor; simpl; try (intuition discriminate))|]. split; vm_compute; reflexivity.
Qed.

(** An object met first inside an object that stands alone in database and repeated
    elsewhere is written twice: in the entry of that object and in its own. *)
Theorem C09_written_twice_refuted : exists c d o refs w e0 e1,
  wf_val (VObj c d) /\ ex_to_dict (fun c => String.eqb c "m.Axle") true c d = Ok (VDict o) /\ In (KStr "_references", VDict refs) o
  /\ In (KStr "0", w) refs /\ In (KStr "object_class", VStr "m.Wheel") e0 /\ w = VDict e0
  /\ In (KStr "1", VDict e1) refs /\ In (KStr "left", w) e1 /\ In (KStr "spare", VDict [(KStr "$ref", VStr (pointer_to "0"))]) o.
Proof.
  exists "m.Car", [(KStr "axle", VObj "m.Axle" [(KStr "left", wheel "w"); (KStr "name", VStr "a")]); (KStr "spare", wheel "w"); (KStr "name", VStr "car")].
  do 5 eexists. split; [repeat (econstructor; simpl; try (intuition discriminate))|]. split; [vm_compute; reflexivity|].
  split; [simpl; eauto 10|]. split; [simpl; right; left; reflexivity|]. split; [|split; [reflexivity|]]; [simpl; eauto|].
  split; [simpl; left; reflexivity|]. simpl. eauto 10.
Qed.
Print Assumptions C09_names_refuted.
Print Assumptions C09_int_key_refuted.
Print Assumptions C08_slash_refuted.
Print Assumptions C09_written_twice_refuted.

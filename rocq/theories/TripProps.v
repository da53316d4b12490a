(** C43: objects serialised with pointers are recovered. *)
From Coq Require Import ZArith Bool String Ascii List Lia.
From Verif Require Import Base BaseProofs PyValue DataModel DataSpec DataProofs PathsModel PathsSpec SerialModel SerialSpec SerialProofs SerialProps
  PointersModel PointersSpec PointersProofs PointersProps Topo DerefModel DerefSpec DerefProofs DerefProps TripSpec TripProofs.
Import ListNotations.
Open Scope string_scope.
Open Scope list_scope.

Section C43.
Variable non_serializable non_data_eq : string -> list string.
Variable jsonable : val -> bool.
Variable annotation_of_class : string -> string.
Variable standalone : string -> bool.
Variable str_key : key -> string.
Variable str_nat : nat -> string.
Variable id_name : nat -> string.
Variable same : val -> val -> bool.
Variable int_of : string -> option Z.
Variable isdigit : string -> bool.
Variable class_named : string -> res (option val).
Variable find_class : val -> res string.
Variable arguments : string -> list string.
Variable tuple_annotated : string -> string -> bool.
Variable construct : string -> list (key * val) -> res val.
Variable sort : list string -> list (string * string) -> option (list string).
(** str, int, uuid and the topological sort of the graph library *)
Hypothesis str_key_str : forall s, str_key (KStr s) = s.
Hypothesis str_nat_good : forall n, good_name (str_nat n).
Hypothesis int_str_nat : forall n, int_of (str_nat n) = Some (Z.of_nat n).
Hypothesis id_name_good : forall i, good_name (id_name i).
Hypothesis id_name_inj : forall i j, id_name i = id_name j -> i = j.
Hypothesis id_name_class : forall i, id_name i <> "object_class".
Hypothesis SORT : sorts sort.
Notation serialize := (serialize non_serializable jsonable annotation_of_class).
Notation to_dict := (to_dict non_serializable jsonable annotation_of_class standalone str_key str_nat id_name same int_of isdigit).
Notation dict_to_object := (dict_to_object str_key str_nat int_of isdigit sort class_named find_class arguments tuple_annotated construct).
Notation occurs := (occurs non_serializable).
Notation portable := (portable non_serializable annotation_of_class class_named find_class arguments construct).
Notation recovered := (recovered non_serializable arguments).

(** An object that serialises without pointers is written with pointers, whichever objects
    are held equal as long as these serialise alike; what is written can be read, and gives
    an object with the same data. *)
Theorem C43_round_trip : forall n m c d p, 2 <= n -> 2 <= m -> wf_val (VObj c d) -> good_keys (VObj c d) -> portable (VObj c d) ->
  ~ In "_references" (arguments c) ->
  (forall s, In (KStr s) (map fst d) -> serialised non_serializable c (KStr s) -> attribute_name s) ->
  (forall x y s t, occurs x (VObj c d) -> occurs y (VObj c d) -> same x y = true -> serialize x = Ok s -> serialize y = Ok t -> alike s t) ->
  serialize (VObj c d) = Ok (VDict p) ->
  exists o u, to_dict n c d = Ok (VDict o) /\ dict_to_object m (VDict o) = Ok u /\ recovered (VObj c d) u.
Proof.
  intros. assert (NS : forall i, no_slash (str_nat i)) by (intros i; apply (str_nat_good i)). eapply whole_trip; eauto.
Qed.

(** When the attributes that data equality looks at are constructor arguments, the object
    read is data-equal to the one written. *)
Theorem C43_data_equal : forall n m c d p, 2 <= n -> 2 <= m -> wf_val (VObj c d) -> nan_free (VObj c d) -> good_keys (VObj c d) -> portable (VObj c d) ->
  ~ In "_references" (arguments c) ->
  (forall s, In (KStr s) (map fst d) -> serialised non_serializable c (KStr s) -> attribute_name s) ->
  (forall x y s t, occurs x (VObj c d) -> occurs y (VObj c d) -> same x y = true -> serialize x = Ok s -> serialize y = Ok t -> alike s t) ->
  everywhere (fun v => forall c d s, v = VObj c d -> In (KStr s) (map fst d) -> counts non_serializable non_data_eq c (KStr s) -> In s (arguments c))
             (VObj c d) ->
  serialize (VObj c d) = Ok (VDict p) ->
  exists o u, to_dict n c d = Ok (VDict o) /\ dict_to_object m (VDict o) = Ok u
   /\ data_eq non_serializable non_data_eq (VObj c d) u = true.
Proof.
  intros n m c d p L1 L2 W N G P A AN AL C S.
  destruct (C43_round_trip n m c d p L1 L2 W G P A AN AL S) as [o [u [T [D R]]]]. exists o, u. split; auto. split; auto.
  eapply recovered_data_eq; eauto.
Qed.
End C43.
Print Assumptions C43_round_trip.
Print Assumptions C43_data_equal.

(** ** A car in which a wheel occurs twice *)
Definition ex_td := to_dict none (fun _ => true) (fun n => n) (fun c => String.eqb c "app.Car") ex_str_key dec dec (val_eqb true) undec ex_isdigit 2.
Definition ex_car2 := [(KStr "wheels", VList [ex_wheel 1; ex_wheel 2; ex_wheel 1]); (KStr "size", VTuple [VInt 3; VInt 4]); (KStr "name", VStr "c")].
Lemma ex_car2_ok : wf_val (VObj "app.Car" ex_car2) /\ portable_ex (VObj "app.Car" ex_car2) /\ good_keys (VObj "app.Car" ex_car2).
Proof.
  split; [unfold ex_car2, ex_wheel; repeat (econstructor; simpl; try (intuition discriminate))|].
  assert (RW : forall r, portable_ex (ex_wheel r) /\ good_keys (ex_wheel r)).
  { intros r. split.
    - apply ev_obj; [|repeat constructor]. simpl. repeat split; try (intuition discriminate); eauto. apply ex_rebuilds; [reflexivity| |].
      + intros s. simpl. tauto.
      + intros s [<-|[]]. apply ex_serialised. discriminate.
    - apply ev_obj; [split; [good_names|simpl; eauto]|]. repeat constructor. }
  split.
  - apply ev_obj.
    + simpl. repeat split; try (intuition discriminate); eauto. apply ex_rebuilds; [reflexivity| |].
      * intros s. simpl. tauto.
      * intros s [<-|[<-|[]]]; apply ex_serialised; discriminate.
    + constructor; [|constructor; [|constructor; [|constructor]]]; simpl.
      * apply ev_list; [exact I|]. repeat (apply Forall_cons; [apply RW|]). constructor.
      * apply ev_tuple; [exact I|]. repeat constructor.
      * apply ev_str. reflexivity.
  - apply ev_obj; [split; [good_names|simpl; eauto 10]|]. apply Forall_cons; simpl.
    + apply ev_list; [exact I|]. repeat (apply Forall_cons; [apply RW|]). constructor.
    + apply Forall_cons; [apply ev_tuple; [exact I|]|]; repeat constructor.
Qed.
Notation ser0 := (serialize none (fun _ => true) (fun n => n)).
Lemma ex_same_alike d : good_keys d -> wf_val d -> forall x y s t, occurs none x d -> occurs none y d -> val_eqb true x y = true ->
  ser0 x = Ok s -> ser0 y = Ok t -> alike s t.
Proof.
  intros G W x y s t X Y E Sx Sy. rewrite (val_eqb_eq _ _ E) in *. rewrite Sx in Sy. injection Sy as <-.
  apply json_alike. eapply serialize_json; [|eapply occurs_inside; [exact Y|]|eauto].
  - eapply occurs_wf; eauto.
  - apply everywhere_weaken with (P := good_keys_here); auto. intros v; destruct v; simpl; tauto.
Qed.
Example C43_applies : exists o u, ex_td "app.Car" ex_car2 = Ok (VDict o) /\ dto (VDict o) = Ok u /\ recovered none ex_arguments (VObj "app.Car" ex_car2) u.
Proof.
  destruct ex_car2_ok as [W [P G]].
  assert (exists p, ser0 (VObj "app.Car" ex_car2) = Ok (VDict p)) as [p S] by (eexists; vm_compute; reflexivity).
  apply (C43_round_trip none (fun _ => true) (fun n => n) (fun c => String.eqb c "app.Car") ex_str_key dec dec (val_eqb true) undec ex_isdigit
    ex_class_named ex_find ex_arguments ex_tuple ex_construct kahn_sort (fun _ => eq_refl) dec_good undec_dec dec_good dec_inj) with (p := p); auto; try lia.
  - intros i E. assert (H : undec (dec i) = undec "object_class") by (rewrite E; reflexivity). rewrite undec_dec in H. discriminate.
  - exact kahn_sorts.
  - simpl. intuition discriminate.
  - simpl. intros s H _. repeat destruct H as [H|H]; try contradiction; injection H as <-; do 2 eexists; (split; [reflexivity|split; discriminate]).
  - exact (ex_same_alike _ G W).
Qed.
Example C43_example : exists o, ex_td "app.Car" ex_car2 = Ok (VDict o)
  /\ In (KStr "wheels", VList [ex_ref "#/_references/0"; VDict [(KStr "object_class", VStr "app.Wheel"); (KStr "name", VStr "w"); (KStr "r", VInt 2)];
                               ex_ref "#/_references/0"]) o
  /\ dto (VDict o) = Ok (VObj "app.Car" [(KStr "name", VStr "c");
       (KStr "wheels", VList [VObj "app.Wheel" [(KStr "name", VStr "w"); (KStr "r", VInt 1)]; VObj "app.Wheel" [(KStr "name", VStr "w"); (KStr "r", VInt 2)];
                              VObj "app.Wheel" [(KStr "name", VStr "w"); (KStr "r", VInt 1)]]);
       (KStr "size", VTuple [VInt 3; VInt 4])]).
Proof. eexists. split; [vm_compute; reflexivity|]. split; [simpl; eauto 10|]. vm_compute. reflexivity. Qed.

(** Objects that are held equal and differ in their names come back with one name. *)
Theorem C43_names_refuted : exists c d o u, wf_val (VObj c d) /\ portable_ex (VObj c d) /\ good_keys (VObj c d)
  /\ to_dict none (fun _ => true) (fun n => n) (fun _ => false) ex_str_key dec dec (val_eqb false) undec ex_isdigit 2 c d = Ok (VDict o)
  /\ dto (VDict o) = Ok u /\ ~ recovered none ex_arguments (VObj c d) u.
Proof.
  pose (w := fun n => VObj "app.Wheel" [(KStr "r", VInt 1); (KStr "name", VStr n)]).
  exists "app.Car", [(KStr "wheels", VList [w "a"; w "b"]); (KStr "size", VTuple []); (KStr "name", VStr "c")].
  do 2 eexists. split; [repeat (econstructor; simpl; try (intuition discriminate))|].
  assert (RW : forall n, ex_class_named n = Ok None -> portable_ex (w n) /\ good_keys (w n)).
  { intros n E. split.
    - apply ev_obj; [|repeat constructor; auto]. simpl. repeat split; try (intuition discriminate); eauto. apply ex_rebuilds; [reflexivity| |].
      + intros s. simpl. tauto.
      + intros s [<-|[]]. apply ex_serialised. discriminate.
    - apply ev_obj; [split; [good_names|simpl; eauto]|]. repeat constructor. }
  split; [|split; [|split; [vm_compute; reflexivity|split; [vm_compute; reflexivity|]]]].
  - apply ev_obj.
    + simpl. repeat split; try (intuition discriminate); eauto. apply ex_rebuilds; [reflexivity| |].
      * intros s. simpl. tauto.
      * intros s [<-|[<-|[]]]; apply ex_serialised; discriminate.
    + constructor; [|constructor; [|constructor; [|constructor]]]; simpl.
      * apply ev_list; [exact I|]. repeat (apply Forall_cons; [apply RW; reflexivity|]). constructor.
      * apply ev_tuple; [exact I|]. repeat constructor.
      * apply ev_str. reflexivity.
  - apply ev_obj; [split; [good_names|simpl; eauto 10]|]. apply Forall_cons; simpl.
    + apply ev_list; [exact I|]. repeat (apply Forall_cons; [apply RW; reflexivity|]). constructor.
    + apply Forall_cons; [apply ev_tuple; [exact I|]|]; repeat constructor.
  - intros R. inversion R as [v0 S D O|v0 w0 l0 m S S' F|d0 e ND K F|c0 d0 e ND K F]; subst; try discriminate.
    assert (B : recovered none ex_arguments (VList [w "a"; w "b"]) (VList [VObj "app.Wheel" [(KStr "name", VStr "a"); (KStr "r", VInt 1)];
                                                                          VObj "app.Wheel" [(KStr "name", VStr "a"); (KStr "r", VInt 1)]])).
    { apply (F "wheels"); [left; reflexivity|apply ex_serialised; discriminate|simpl; auto|simpl; auto]. }
    clear - B. inversion B as [v0 S D O|v0 w0 l0 m S S' F| |]; subst; try discriminate.
    injection S as <-. injection S' as <-. inversion F as [|? ? ? ? _ F']; subst. inversion F' as [|? ? ? ? R _]; subst.
    inversion R as [v0 S D O|v0 w0 l0 m S S' F0|d0 e ND K F0|c0 d0 e ND K F0]; subst; try discriminate.
    assert (B' : recovered none ex_arguments (VStr "b") (VStr "a")).
    { apply (F0 "name"); [right; left; reflexivity|apply ex_serialised; discriminate|simpl; auto|simpl; auto]. }
    inversion B' as [v0 S D O|v0 w0 l0 m S S' F1| |]; discriminate.
Qed.
Print Assumptions C43_names_refuted.

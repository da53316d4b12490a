(** C10: pointers are followed in dependency order. *)
From Coq Require Import ZArith Bool String Ascii Relations List Lia.
From Verif Require Import Base BaseProofs PyValue DataProofs PathsModel PathsSpec PathsProofs SerialModel SerialProofs SerialProps
  PointersSpec PointersProps Topo DerefModel DerefSpec DerefProofs.
Import ListNotations.
Open Scope string_scope.
Open Scope list_scope.

Section C10.
Variable str_key : key -> string.
Variable str_nat : nat -> string.
Variable int_of : string -> option Z.
Variable isdigit : string -> bool.
Variable class_named : string -> res (option val).
Variable find_class : val -> res string.
Variable arguments : string -> list string.
Variable tuple_annotated : string -> string -> bool.
Variable construct : string -> list (key * val) -> res val.
Variable sort : list string -> list (string * string) -> option (list string).
(** whatever the topological order given by the graph library *)
Hypothesis SORT : sorts sort.
Notation part := (part str_key str_nat).
Notation pointer := (pointer str_key str_nat).
Notation mentioned := (mentioned str_key str_nat).
Notation depends := (depends str_key str_nat).
Notation rooted := (rooted str_key str_nat).
Notation direct := (direct str_key str_nat).
Notation describes := (describes str_key str_nat class_named find_class arguments tuple_annotated construct).
Notation deserialization_order := (deserialization_order str_key str_nat sort).
Notation dict_to_object := (dict_to_object str_key str_nat int_of isdigit sort class_named find_class arguments tuple_annotated construct).

(** The order has no repetition, has every path on the way to a pointer or to its target,
    and what a path depends on comes before it. *)
Theorem C10_order : forall n v order, wf_val v -> deserialization_order n v = Ok order ->
  NoDup (map fst order)
  /\ (forall m, mentioned v m -> m <> "#" -> In m (map fst order))
  /\ (forall p t, pointer v p t -> p <> "#" -> before t p (map fst order))
  /\ (forall a b, child_of a b -> mentioned v b -> a <> "#" -> before b a (map fst order)).
Proof.
  intros n v order W O. destruct (order_ok str_key str_nat sort SORT n v order W O) as [ND [_ [CO [BE _]]]].
  split; auto. split; auto. split; intros a b; intros; apply BE; auto; [left|right]; auto.
Qed.

(** A document in which something depends on itself is rejected... *)
Theorem C10_cycle_rejected : forall n v, wf_val v -> pointers_ok v -> rooted v ->
  (forall p t, pointer v p t -> length (PathsModel.split t) <= S n) ->
  (exists x, clos_trans _ (depends v) x x) -> deserialization_order n v = Err NotImplementedError.
Proof. intros n v W P R D C. exact (order_cycle str_key str_nat sort SORT n v W P R D C). Qed.

(** ...the others have an order, if no pointer goes through a pointer. *)
Theorem C10_acyclic_accepted : forall n v, wf_val v -> pointers_ok v -> rooted v -> direct v ->
  (forall p t, pointer v p t -> length (PathsModel.split t) <= S n) ->
  ~ (exists x, clos_trans _ (depends v) x x) ->
  exists order, deserialization_order n v = Ok order /\ forall m r, In (m, r) order -> mentioned v m /\ r = None.
Proof.
  intros n v W P R D DE C. destruct (order_total str_key str_nat sort SORT n v W P R DE D C) as [order O]. exists order. split; auto.
  destruct (order_ok str_key str_nat sort SORT n v order W O) as [_ [_ [_ [_ [_ H]]]]]. auto.
Qed.

(** Deserialising then gives what the document describes, every pointer standing for what
    its target describes. *)
Theorem C10_dereferences : forall n v u, (forall s, str_key (KStr s) = s) -> (forall i, no_slash (str_nat i)) ->
  (forall i, int_of (str_nat i) = Some (Z.of_nat i)) ->
  wf_val v -> named_keys str_key str_nat v -> pointers_ok v -> rooted v -> direct v ->
  (forall p t, pointer v p t -> length (PathsModel.split t) <= S n) ->
  ~ (exists x, clos_trans _ (depends v) x x) ->
  (forall m, mentioned v m -> m <> "#" -> exists q x u, m = full q /\ part v q x /\ describes v q false x u) ->
  describes v [] false v u -> dict_to_object n v = Ok u.
Proof.
  intros n v u H1 H2 H3 W N P R D DE C ALL DU.
  exact (dict_to_object_ok str_key str_nat int_of isdigit H1 H2 H3 class_named find_class arguments tuple_annotated construct v W N
           sort SORT P R D C ALL n u DE DU).
Qed.

(** A pointer to something else than a path from the root is never done with. *)
Theorem C10_unrooted_never_ends_refuted : forall n v p t, wf_val v -> pointers_ok v -> pointer v p t -> ~ within "#" t ->
  dict_to_object n v = Err OutOfFuel.
Proof.
  intros n v p t W P Q N. unfold DerefModel.dict_to_object, dereference, DerefModel.deserialization_order.
  rewrite (graph_diverges str_key str_nat n v p t W P Q N). reflexivity.
Qed.
End C10.

Notation ord := (deserialization_order ex_str_key dec kahn_sort 20).
Notation dto := (dict_to_object ex_str_key dec undec ex_isdigit kahn_sort ex_class_named ex_find ex_arguments ex_tuple ex_construct 20).
Definition ex_ref t := VDict [(KStr "$ref", VStr t)].
Definition ex_ser_wheel r := VDict [(KStr "object_class", VStr "app.Wheel"); (KStr "r", VInt r); (KStr "name", VStr "w")].

(** A pointer whose target is found through a pointer is followed, through two of them it
    is not. *)
Definition ex_through := [(KStr "c", VDict [(KStr "x", ex_ser_wheel 1)]); (KStr "b", ex_ref "#/c")].
Definition ex_through_one := VDict (ex_through ++ [(KStr "d", ex_ref "#/b/x")]).
Definition ex_through_two := VDict (ex_through ++ [(KStr "a", ex_ref "#/b"); (KStr "d", ex_ref "#/a/x")]).
Theorem C10_through_pointers_refuted :
  (exists u, dto ex_through_one = Ok (VDict u) /\ In (KStr "d", ex_wheel 1) u) /\ dto ex_through_two = Err ExtractionError.
Proof. split; [eexists; split; [vm_compute; reflexivity|simpl; auto]|vm_compute; reflexivity]. Qed.

(** A tuple is not restored as a tuple when there is a pointer inside. *)
Definition ex_tuple_doc inside := VDict [(KStr "object_class", VStr "app.Car"); (KStr "wheels", VList []); (KStr "size", VList [inside; VInt 2]);
  (KStr "_references", VDict [(KStr "1", ex_ser_wheel 1)])].
Theorem C10_tuple_refuted : exists a b, a <> b
  /\ dto (ex_tuple_doc (ex_ser_wheel 1)) = Ok (VObj "app.Car" [(KStr "wheels", VList []); (KStr "size", VTuple [ex_wheel 1; VInt 2])])
  /\ dto (ex_tuple_doc (ex_ref "#/_references/1")) = Ok (VObj "app.Car" [(KStr "wheels", VList []); (KStr "size", VList [ex_wheel 1; VInt 2])])
  /\ a = ex_tuple_doc (ex_ser_wheel 1) /\ b = ex_tuple_doc (ex_ref "#/_references/1").
Proof. eexists. eexists. split; [|split; [|split; [|split; reflexivity]]]; [discriminate| |]; vm_compute; reflexivity. Qed.

Print Assumptions C10_order.
Print Assumptions C10_cycle_rejected.
Print Assumptions C10_acyclic_accepted.
Print Assumptions C10_dereferences.
Print Assumptions C10_unrooted_never_ends_refuted.
Print Assumptions C10_through_pointers_refuted.
Print Assumptions C10_tuple_refuted.

(** the promise of the graph library can be kept *)
Example C10_sort : sorts kahn_sort.
Proof. exact kahn_sorts. Qed.
Definition ex_shared := VDict [(KStr "object_class", VStr "app.Car"); (KStr "wheels", VList [ex_ref "#/_references/1"; ex_ser_wheel 2; ex_ref "#/_references/1"]);
  (KStr "size", VList [VInt 3; VInt 4]); (KStr "_references", VDict [(KStr "1", ex_ser_wheel 1)])].
Example C10_example_order :
  ord ex_shared = Ok [("#/_references/1", None); ("#/wheels/0", None); ("#/_references", None); ("#/wheels/2", None); ("#/wheels", None)].
Proof. vm_compute. reflexivity. Qed.
Example C10_example : dto ex_shared
  = Ok (VObj "app.Car" [(KStr "wheels", VList [ex_wheel 1; ex_wheel 2; ex_wheel 1]); (KStr "size", VTuple [VInt 3; VInt 4])]).
Proof. vm_compute. reflexivity. Qed.
(** two dictionaries, each with a pointer to the other inside *)
Definition ex_cycle := VDict [(KStr "a", VDict [(KStr "x", ex_ref "#/b")]); (KStr "b", VDict [(KStr "y", ex_ref "#/a")])].
Example C10_example_cycle : ord ex_cycle = Err NotImplementedError
  /\ clos_trans _ (depends ex_str_key dec ex_cycle) "#/a" "#/a".
Proof.
  split; [vm_compute; reflexivity|].
  assert (P1 : pointer ex_str_key dec ex_cycle "#/a/x" "#/b").
  { exists ["a"; "x"], [(KStr "$ref", VStr "#/b")]. split; [|split; [left; reflexivity|reflexivity]].
    apply (pa_key ex_str_key dec _ (KStr "a") (VDict [(KStr "x", ex_ref "#/b")])); [simpl; intuition discriminate|left; reflexivity|].
    apply (pa_key ex_str_key dec _ (KStr "x") (ex_ref "#/b")); [simpl; intuition discriminate|left; reflexivity|]. constructor. }
  assert (P2 : pointer ex_str_key dec ex_cycle "#/b/y" "#/a").
  { exists ["b"; "y"], [(KStr "$ref", VStr "#/a")]. split; [|split; [left; reflexivity|reflexivity]].
    apply (pa_key ex_str_key dec _ (KStr "b") (VDict [(KStr "y", ex_ref "#/a")])); [simpl; intuition discriminate|right; left; reflexivity|].
    apply (pa_key ex_str_key dec _ (KStr "y") (ex_ref "#/a")); [simpl; intuition discriminate|left; reflexivity|]. constructor. }
  apply t_trans with "#/a/x"; [apply t_step; right; split; [exists "x"; split; [unfold no_slash; simpl; intuition discriminate|reflexivity]|]|].
  - exists "#/a/x", "#/b". split; auto. left. left. reflexivity.
  - apply t_trans with "#/b"; [apply t_step; left; exact P1|].
    apply t_trans with "#/b/y"; [apply t_step; right; split; [exists "y"; split; [unfold no_slash; simpl; intuition discriminate|reflexivity]|]|].
    + exists "#/b/y", "#/a". split; auto. left. left. reflexivity.
    + apply t_step. left. exact P2.
Qed.

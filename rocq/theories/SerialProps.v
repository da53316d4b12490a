(** C07: serialisation without pointers and back. *)
From Coq Require Import ZArith Bool String Ascii List.
From Verif Require Import Base BaseProofs PyValue DataModel DataSpec DataProofs PathsSpec SerialModel SerialSpec SerialProofs.
Import ListNotations.
Open Scope string_scope.
Open Scope list_scope.

Section C07.
Variable non_serializable non_data_eq : string -> list string.
Variable str_key : key -> string.
Variable str_nat : nat -> string.
Variable jsonable : val -> bool.
Variable annotation_of_class : string -> string.
Variable class_named : string -> res (option val).
Variable find_class : val -> res string.
Variable arguments : string -> list string.
Variable tuple_annotated : string -> string -> bool.
Variable construct : string -> list (key * val) -> res val.
Notation serialize := (serialize non_serializable jsonable annotation_of_class).
Notation deserialize := (deserialize str_key class_named find_class arguments tuple_annotated construct str_nat).
Notation restored := (restored non_serializable arguments tuple_annotated).
Notation portable := (portable non_serializable annotation_of_class class_named find_class arguments construct).
Notation data_eq := (data_eq non_serializable non_data_eq).

(** What has json numbers and strings at its leaves and names on its objects is serialised... *)
Theorem C07_accepts : forall v, wf_val v -> everywhere (acceptable_here jsonable) v -> exists s, serialize v = Ok s.
Proof. exact (serialize_total non_serializable jsonable annotation_of_class). Qed.

(** ...into dictionaries, lists, numbers and strings only... *)
Theorem C07_json : forall v s, wf_val v ->
  everywhere (fun v => match v with VObj _ d => exists n, In (KStr "name", VStr n) d | _ => True end) v ->
  serialize v = Ok s -> json s.
Proof. intros v s W N. exact (serialize_json non_serializable jsonable annotation_of_class v W N s). Qed.

(** ...an object into a dictionary that has its class, its name, and apart from those exactly
    its attributes that are neither private nor excluded by the class... *)
Theorem C07_content : forall c d s, wf_val (VObj c d) -> serialize (VObj c d) = Ok s -> ~ In (KStr "object_class") (map fst d) ->
  exists e, s = VDict e /\ NoDup (map fst e) /\ In (KStr "object_class", VStr c) e /\ In (KStr "name") (map fst e)
   /\ forall k, k <> KStr "object_class" -> k <> KStr "name" ->
        (In k (map fst e) <-> In k (map fst d) /\ serialised non_serializable c k)
        /\ forall y, In (k, y) e -> exists x, In (k, x) d /\ serialize x = Ok y.
Proof. intros c d s W S N. exact (serialize_content non_serializable jsonable annotation_of_class c d s W S N). Qed.

(** ...from which it is restored: deserialising never fails and gives a value that has the
    same shape, the same classes and, in its objects, every serialised attribute that is a
    constructor argument. *)
Theorem C07_round_trip : forall v s p ann, wf_val v -> portable v -> serialize v = Ok s ->
  exists w, deserialize [] p ann s = Ok w /\ restored ann v w.
Proof.
  intros v s p ann W P S.
  exact (round_trip non_serializable str_key str_nat jsonable annotation_of_class class_named find_class arguments tuple_annotated construct
           v W P ann p s S).
Qed.

(** When the attributes data equality looks at are constructor arguments, the value
    restored is data-equal to the original. *)
Theorem C07_data_equal : forall v s p ann, wf_val v -> nan_free v -> portable v ->
  everywhere (fun v => forall c d s, v = VObj c d -> In (KStr s) (map fst d) -> counts non_serializable non_data_eq c (KStr s) ->
                       In s (arguments c)) v ->
  serialize v = Ok s -> exists w, deserialize [] p ann s = Ok w /\ data_eq v w = true.
Proof.
  intros v s p ann W N P C S. destruct (C07_round_trip v s p ann W P S) as [w [D R]]. exists w. split; auto.
  exact (restored_data_eq non_serializable non_data_eq arguments tuple_annotated v W N C ann w R).
Qed.
End C07.

(** ** A small set of classes, for witnesses and examples: [Wheel(r, name)],
    [Car(wheels, size: Tuple, name)], whose constructors keep what they are given. *)
Definition ex_classes := ["app.Car"; "app.Wheel"].
Definition ex_class_named (s : string) : res (option val) :=
  Ok (if memb String.eqb s ex_classes then Some (VClass s true) else None).
Definition ex_find (v : val) : res string :=
  match v with VStr s => if memb String.eqb s ex_classes then Ok s else Err AttributeError | _ => Err TypeError end.
Definition ex_arguments (c : string) : list string :=
  if String.eqb c "app.Car" then ["self"; "wheels"; "size"; "name"] else ["self"; "r"; "name"].
Definition ex_required (c : string) : list string := if String.eqb c "app.Car" then ["wheels"; "size"] else ["r"].
Definition ex_tuple (c s : string) : bool := String.eqb s "size".
Definition ex_construct (c : string) (kw : list (key * val)) : res val :=
  if forallb (fun s => has_key (KStr s) kw) (ex_required c) then Ok (VObj c kw) else Err TypeError.
Definition ex_key (k : key) : string := match k with KStr s => s | _ => "?" end.
Definition ex_nat (n : nat) : string := "0".
Definition none (_ : string) : list string := [].
Notation ser := (serialize none (fun _ => true) (fun c => c)).
Notation des := (deserialize ex_key ex_class_named ex_find ex_arguments ex_tuple ex_construct ex_nat [] "#" false).
Notation portable_ex := (portable none (fun c => c) ex_class_named ex_find ex_arguments ex_construct).

(** A string that names a class comes back as the class. *)
Theorem C07_class_name_refuted : exists v s w, ser v = Ok s /\ des s = Ok w /\ v = VStr "app.Car" /\ w = VClass "app.Car" true.
Proof. exists (VStr "app.Car"). eexists. eexists. repeat split; reflexivity. Qed.

(** A dictionary with a reserved key does not come back. *)
Theorem C07_reserved_key_refuted :
  (exists d s, ser (VDict d) = Ok s /\ des s = Err RuntimeError) /\ (exists d s, ser (VDict d) = Ok s /\ des s = Err AttributeError).
Proof.
  split.
  - exists [(KStr "$ref", VStr "x")]. eexists. split; reflexivity.
  - exists [(KStr "object_class", VStr "x")]. eexists. split; reflexivity.
Qed.

(** A tuple comes back as a list, even where the annotation asks for tuples inside a list. *)
Theorem C07_tuples_refuted : exists v s w, ser v = Ok s /\ des s = Ok w /\ v = VTuple [VInt 1] /\ w = VList [VInt 1].
Proof. exists (VTuple [VInt 1]). eexists. eexists. repeat split; reflexivity. Qed.

(** An attribute that is not a constructor argument is lost, and the object restored is
    not data-equal to the original. *)
Theorem C07_extra_attribute_refuted : exists v s w, ser v = Ok s /\ des s = Ok w /\ data_eq none none v w = false.
Proof.
  exists (VObj "app.Wheel" [(KStr "r", VInt 1); (KStr "name", VStr ""); (KStr "mass", VInt 2)]).
  eexists. eexists. repeat split; reflexivity.
Qed.

Print Assumptions C07_accepts.
Print Assumptions C07_json.
Print Assumptions C07_content.
Print Assumptions C07_round_trip.
Print Assumptions C07_data_equal.
Print Assumptions C07_class_name_refuted.
Print Assumptions C07_reserved_key_refuted.
Print Assumptions C07_tuples_refuted.
Print Assumptions C07_extra_attribute_refuted.

Definition ex_wheel (r : Z) := VObj "app.Wheel" [(KStr "r", VInt r); (KStr "name", VStr "w")].
Definition ex_car := VObj "app.Car" [(KStr "wheels", VList [ex_wheel 1; ex_wheel 2]); (KStr "size", VTuple [VInt 3; VInt 4]); (KStr "name", VStr "c")].

Lemma ex_rebuilds c d : forallb (fun s => has_key (KStr s) d) (ex_required c) = true -> incl (ex_required c) (ex_arguments c) ->
  (forall s, In s (ex_required c) -> serialised none c (KStr s)) -> rebuilds none ex_arguments ex_construct c d.
Proof.
  intros H I S kw N K. unfold ex_construct.
  assert (E : forallb (fun s => has_key (KStr s) kw) (ex_required c) = true).
  { rewrite forallb_forall in *. intros s R. apply has_key_In. apply K. split; auto. right. split; auto. apply has_key_In. auto. }
  rewrite E. exists kw. auto.
Qed.
Lemma ex_serialised c s : (forall t, s <> String "_" t) -> serialised none c (KStr s).
Proof. intros H. split; [simpl; auto|]. intros [t E]. inversion E. apply (H t); auto. Qed.

Example ex_car_portable : wf_val ex_car /\ portable_ex ex_car.
Proof.
  split; [unfold ex_car, ex_wheel; repeat (econstructor; simpl; try (intuition discriminate))|].
  assert (RW : forall r, portable_here none (fun c => c) ex_class_named ex_find ex_arguments ex_construct (ex_wheel r)).
  { intros r. simpl. repeat split; try (intuition discriminate); eauto. apply ex_rebuilds; [reflexivity| |].
    - intros s. simpl. tauto.
    - intros s [<-|[]]. apply ex_serialised. discriminate. }
  assert (PW : forall r, portable_ex (ex_wheel r)).
  { intros r. apply ev_obj; [apply RW|]. repeat constructor. }
  apply ev_obj.
  - simpl. repeat split; try (intuition discriminate); eauto. apply ex_rebuilds; [reflexivity| |].
    + intros s. simpl. tauto.
    + intros s [<-|[<-|[]]]; apply ex_serialised; discriminate.
  - constructor; [|constructor; [|constructor; [|constructor]]]; simpl.
    + apply ev_list; [exact I|]. apply Forall_cons; [apply PW|]. apply Forall_cons; [apply PW|]. constructor.
    + apply ev_tuple; [exact I|]. repeat constructor.
    + apply ev_str. reflexivity.
Qed.
Example ex_car_trip : exists s w, ser ex_car = Ok s /\ des s = Ok w /\ data_eq none none ex_car w = true
  /\ w = VObj "app.Car" [(KStr "name", VStr "c"); (KStr "wheels", VList [VObj "app.Wheel" [(KStr "name", VStr "w"); (KStr "r", VInt 1)];
                          VObj "app.Wheel" [(KStr "name", VStr "w"); (KStr "r", VInt 2)]]); (KStr "size", VTuple [VInt 3; VInt 4])].
Proof. eexists. eexists. split; [reflexivity|]. split; [reflexivity|]. split; reflexivity. Qed.

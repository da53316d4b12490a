(** Properties C02 to C05: data equality, data hash and diff. *)
From Coq Require Import ZArith QArith Qabs Lia Bool String Ascii Permutation List.
From Verif Require Import Base PyValue DataModel DataSpec DataProofs DiffProofs.
Import ListNotations.
Open Scope string_scope.
Open Scope list_scope.

(** [everywhere], [wf_val] and [seq_of] are in PyValue, the other words in DataSpec. *)

(** ** C03 *)

(** C03a: what data equality means: every item of the first value, at any depth, is found
    in the second one, floats within tolerance, classes never compared. *)
Theorem C03_meaning :
  forall non_serializable non_data_eq v w, wf_val v -> wf_val w ->
    (data_eq non_serializable non_data_eq v w = true <-> agrees non_serializable non_data_eq v w).
Proof. exact (fun ns ne v w W W' => data_eq_agrees ns ne v w W W'). Qed.
Print Assumptions C03_meaning.

Theorem C03_reflexive :
  forall non_serializable non_data_eq v, wf_val v -> nan_free v -> data_eq non_serializable non_data_eq v v = true.
Proof. exact (fun ns ne v => data_eq_refl ns ne v). Qed.
Print Assumptions C03_reflexive.

Theorem C03_symmetric :
  forall non_serializable non_data_eq v w, wf_val v -> wf_val w ->
    same_sizes non_serializable non_data_eq v w ->
    data_eq non_serializable non_data_eq v w = true -> data_eq non_serializable non_data_eq w v = true.
Proof. exact (fun ns ne v w => data_eq_sym ns ne v w). Qed.
Print Assumptions C03_symmetric.

Theorem C03_transitive :
  forall non_serializable non_data_eq a b c, float_free a ->
    data_eq non_serializable non_data_eq a b = true -> data_eq non_serializable non_data_eq b c = true ->
    data_eq non_serializable non_data_eq a c = true.
Proof. exact (fun ns ne a b c F => data_eq_trans ns ne a F b c). Qed.
Print Assumptions C03_transitive.

Definition none_listed (c : string) : list string := [].

(** C03e: not symmetric on dictionaries of different sizes: a dictionary is equal to any
    dictionary that extends it. *)
Theorem C03_symmetric_refuted :
  forall ns ne d k x, wf_val (VDict d) -> nan_free (VDict d) -> ~ In k (map fst d) ->
    data_eq ns ne (VDict d) (VDict (d ++ [(k, x)])) = true /\ data_eq ns ne (VDict (d ++ [(k, x)])) (VDict d) = false.
Proof.
  intros ns ne d k x W N NI. split.
  - apply data_eq_dict_iff. intros j y I. exists y. split.
    + assert (L := proj2 (lookup_nodup j y d (wf_dict_nodup _ W)) I). clear -L. induction d as [|[i z] d IH]; simpl in *; [discriminate|].
      destruct (key_eqb j i); auto.
    + apply data_eq_refl; [eapply wf_dict_in; eauto|eapply everywhere_dict; eauto].
  - destruct (data_eq ns ne (VDict (d ++ [(k, x)])) (VDict d)) eqn:E; auto. exfalso. rewrite data_eq_dict_iff in E.
    destruct (E k x) as [y [L _]]; [apply in_or_app; simpl; auto|]. apply lookup_In in L. apply NI. eapply in_key; eauto.
Qed.
Print Assumptions C03_symmetric_refuted.

(** C03f: not transitive on floats. *)
Theorem C03_transitive_refuted :
  exists a b c, forall ns ne,
    data_eq ns ne (VFloat a) (VFloat b) = true /\ data_eq ns ne (VFloat b) (VFloat c) = true
    /\ data_eq ns ne (VFloat a) (VFloat c) = false.
Proof.
  exists (Fin 0), (Fin (1 # 1000000000)), (Fin (2 # 1000000000)). intros. repeat split; vm_compute; reflexivity.
Qed.
Print Assumptions C03_transitive_refuted.

Theorem C03_classes_equal :
  forall ns ne n b m c, data_eq ns ne (VClass n b) (VClass m c) = true.
Proof. reflexivity. Qed.
Print Assumptions C03_classes_equal.

(** A nested value with an object, and the same with other sequences and name *)
Definition part (name : string) (n : val) : val :=
  VObj "pkg.Part" [(KStr "n", n); (KStr "name", VStr name); (KStr "_cache", VNone)].
Definition assembly (mk : list val -> val) (name : string) : val :=
  VDict [(KStr "parts", mk [part name (VInt 1); part "x" (VBool false)]); (KStr "w", VFloat (Fin (1 # 2)))].

Example C03_meaning_ex :
  data_eq none_listed none_listed (assembly VList "a") (assembly VTuple "b") = true
  /\ data_eq none_listed none_listed (part "a" (VInt 1)) (part "a" (VInt 2)) = false
  /\ wf_val (assembly VList "a") /\ nan_free (assembly VList "a").
Proof.
  split; [reflexivity|]. split; [reflexivity|]. split.
  - repeat (constructor; simpl); intuition (try congruence); eexists; reflexivity.
  - unfold nan_free. repeat (constructor; simpl; try (unfold not_nan; discriminate)).
Qed.
Example C03_symmetric_ex :
  same_sizes none_listed none_listed (VDict [(KInt 1, VNone); (KInt 2, VInt 5)]) (VDict [(KInt 2, VInt 5); (KInt 1, VNone)]).
Proof.
  apply ss_dict; [reflexivity|]. intros k x y [I|[I|[]]] [J|[J|[]]]; inversion I; inversion J; subst; try discriminate;
    apply ss_atom; simpl; auto; discriminate.
Qed.

(** ** C02 *)
Section Hash.
Variable non_serializable non_data_eq non_data_hash : string -> list string.
Variable short_name : string -> string.
Variable hash_none : Z.
Variable hash_int : Z -> Z.
Variable hash_float : pyfloat -> Z.
Variable hash_class : string -> Z.
Variable hash_key : key -> Z.
Variable float_of : Z -> option Z.
Notation data_eq := (data_eq non_serializable non_data_eq).
Notation choose_hash := (choose_hash non_serializable non_data_eq non_data_hash hash_none hash_int hash_float hash_class hash_key float_of).
Notation object_eq := (object_eq non_serializable non_data_eq non_data_hash short_name hash_none hash_int hash_float hash_class hash_key float_of).

Theorem C02_equal_hash :
  forall v w, wf_val v -> wf_val w -> float_free v -> class_free v ->
    data_eq v w = true -> data_eq w v = true -> choose_hash v = choose_hash w.
Proof.
  intros v w Wv Ww F C E1 E2. apply hash_same_content; auto. apply both_ways_same_content; auto.
Qed.

(** C02b: object equality is then data equality, whenever the hashes can be computed. *)
Theorem C02_object_equality :
  forall c d c' e h h', let o1 := VObj c d in let o2 := VObj c' e in
    wf_val o1 -> wf_val o2 -> float_free o1 -> class_free o1 ->
    choose_hash o1 = Some h -> choose_hash o2 = Some h' -> data_eq o2 o1 = data_eq o1 o2 ->
    object_eq o1 o2 = Some (data_eq o1 o2).
Proof.
  intros c d c' e h h' o1 o2 Wv Ww F C H1 H2 S. unfold DataModel.object_eq, o1, o2 in *. rewrite H1, H2. f_equal.
  destruct (data_eq (VObj c d) (VObj c' e)) eqn:E.
  - rewrite (C02_equal_hash _ _ Wv Ww F C E S) in H1. rewrite H1 in H2. inversion H2. subst h'. rewrite Z.eqb_refl.
    apply data_eq_obj_iff in E. destruct E as [-> _]. rewrite String.eqb_refl. reflexivity.
  - destruct (Z.eqb h h'); auto. destruct (String.eqb (short_name c) (short_name c')); auto.
Qed.

(** C02c: object equality never says more than data equality, for any values. *)
Theorem C02_object_equality_sound :
  forall o1 o2, object_eq o1 o2 = Some true ->
    data_eq o1 o2 = true /\ choose_hash o1 = choose_hash o2.
Proof.
  intros o1 o2 H. unfold DataModel.object_eq in H. destruct o1; try discriminate. destruct o2; try discriminate.
  destruct (choose_hash (VObj c attrs)) as [h|] eqn:H1; [|discriminate].
  destruct (choose_hash (VObj c0 attrs0)) as [h'|] eqn:H2; [|discriminate].
  destruct (Z.eqb h h') eqn:E; [|discriminate]. apply Z.eqb_eq in E. subst.
  destruct (String.eqb _ _); [|discriminate]. inversion H as [E]. rewrite E. auto.
Qed.

(** C02d: with floats, data-equal objects may be different. *)
Theorem C02_floats_refuted :
  forall c k f g, counts_in_hash non_serializable non_data_eq non_data_hash c (KStr k) ->
    (forall z, In z [hash_float f; hash_float g] -> float_of z = Some z) ->
    close f g -> (hash_float f mod 100000 <> hash_float g mod 100000)%Z ->
    let o1 := VObj c [(KStr k, VFloat f)] in let o2 := VObj c [(KStr k, VFloat g)] in
    data_eq o1 o2 = true /\ data_eq o2 o1 = true /\ object_eq o1 o2 = Some false.
Proof.
  intros c k f g Ck FO Cl Hd o1 o2. assert (CE := isclose_close f g). apply CE in Cl.
  assert (E : forall a b, isclose a b = true -> data_eq (VObj c [(KStr k, VFloat a)]) (VObj c [(KStr k, VFloat b)]) = true).
  { intros a b Ci. apply data_eq_obj_iff. split; auto. intros j x [I|[]] _. inversion I; subst. exists (VFloat b).
    split; [simpl; rewrite String.eqb_refl; auto|exact Ci]. }
  split; [apply E; auto|]. split; [apply E; rewrite isclose_sym; auto|].
  unfold DataModel.object_eq, o1, o2. cbn [DataModel.choose_hash map]. apply hashed_key_iff in Ck. cbn [fst snd]. rewrite Ck.
  unfold data_hash. cbn [DataModel.choose_hash osum fold_right oadd]. rewrite !Z.add_0_r.
  rewrite (FO (hash_float f)) by (simpl; auto). rewrite (FO (hash_float g)) by (simpl; auto). cbn [option_map].
  apply Z.eqb_neq in Hd. rewrite Hd. reflexivity.
Qed.

(** ** C04 *)

(** C04a: values with the same content have the same hash; the content of an object is
    made of the attributes that count in the hash. *)
Theorem C04_content :
  forall v w, wf_val v -> wf_val w -> same_content non_serializable non_data_eq non_data_hash v w ->
    choose_hash v = choose_hash w.
Proof. intros v w. apply hash_same_content. Qed.

(** C04b: insertion order of dictionaries, order of attributes. *)
Theorem C04_insertion_order :
  forall d e, NoDup (map fst d) -> Permutation d e -> choose_hash (VDict d) = choose_hash (VDict e).
Proof. intros d e. apply hash_perm_dict. Qed.
Theorem C04_attribute_order :
  forall c d e, Permutation d e -> choose_hash (VObj c d) = choose_hash (VObj c e).
Proof. intros c d e. apply hash_perm_obj. Qed.

(** C04d: renaming an object leaves its hash as it was. *)
Theorem C04_name :
  forall c d v, choose_hash (VObj c (set_key (KStr "name") v d)) = choose_hash (VObj c d).
Proof.
  intros c d v. apply hash_set_uncounted. destruct (hashed_key _ _ _ c (KStr "name")) eqn:E; auto.
  apply hashed_key_iff in E. destruct E as [[_ [_ [_ [E _]]]] _]. contradiction.
Qed.

Theorem C04_range :
  forall c d h, choose_hash (VObj c d) = Some h -> (0 <= h < 100000)%Z.
Proof. intros c d h. apply object_hash_bounds. Qed.

(** C04f: the hash of an object may not exist: with floats below 2^1024, 86 nested pairs
    are enough for the sum of hashes to be too large to be turned into a float. *)
Theorem C04_overflow_refuted :
  forall c k, counts_in_hash non_serializable non_data_eq non_data_hash c (KStr k) ->
    (forall z, (2 ^ 1024 <= z)%Z -> float_of z = None) ->
    choose_hash (VObj c [(KStr k, tower 86)]) = None.
Proof.
  intros c k Ck FO. destruct (tower_hash non_serializable non_data_eq non_data_hash hash_none hash_int hash_float
    hash_class hash_key float_of 86) as [h [E L]].
  apply hashed_key_iff in Ck. rewrite (single_attribute _ _ _ _ _ _ _ _ _ c (KStr k) (tower 86) h Ck E). rewrite FO; [reflexivity|].
  apply Z.le_trans with (2 ^ (12 * Z.of_nat 86))%Z; auto. apply Z.pow_le_mono_r; lia.
Qed.
End Hash.
Print Assumptions C02_equal_hash.
Print Assumptions C02_object_equality.
Print Assumptions C02_object_equality_sound.
Print Assumptions C02_floats_refuted.
Print Assumptions C04_content.
Print Assumptions C04_insertion_order.
Print Assumptions C04_attribute_order.
Print Assumptions C04_name.
Print Assumptions C04_range.
Print Assumptions C04_overflow_refuted.

(** Python's hash of a number n / 2^k is n times the inverse of 2^k modulo 2^61 - 1. *)
Definition py_hash_int (z : Z) : Z := Z.modulo z (2 ^ 61 - 1).
Definition py_hash_float (f : pyfloat) : Z :=
  match f with
  | Fin q => Z.modulo (Qnum q * 2 ^ (61 - Z.log2 (Zpos (Qden q)))) (2 ^ 61 - 1)
  | PInf => 314159
  | NInf => -314159
  | NaN => 0
  end.
Definition test_hash := choose_hash none_listed none_listed none_listed 7 py_hash_int py_hash_float
  (fun _ => 11%Z) (fun _ => 13%Z) (fun z => if Z.leb (2 ^ 1024) z then None else Some z).
Example C02_equal_hash_ex :
  let v := VDict [(KStr "b", VInt 3); (KStr "a", part "x" (VBool true))] in
  let w := VDict [(KStr "a", part "y" (VInt 1)); (KStr "b", VInt 3)] in
  data_eq none_listed none_listed v w = true /\ data_eq none_listed none_listed w v = true
  /\ test_hash v = Some (2 * 1 + 313 * 3)%Z /\ test_hash w = test_hash v.
Proof. vm_compute. auto. Qed.
Example C02_floats_refuted_ex :
  close (Fin 0) (Fin (1 # 2 ^ 34))
  /\ (py_hash_float (Fin 0) mod 100000 <> py_hash_float (Fin (1 # 2 ^ 34)) mod 100000)%Z.
Proof. split; [exists 1%Q; split; [left; reflexivity|vm_compute; discriminate]|vm_compute; discriminate]. Qed.
Example C04_overflow_refuted_ex :
  test_hash (VObj "pkg.Part" [(KStr "n", VInt 4)]) = Some 4%Z
  /\ counts_in_hash none_listed none_listed none_listed "pkg.Part" (KStr "n")
  /\ test_hash (VObj "pkg.Part" [(KStr "n", tower 3)]) = test_hash (VObj "pkg.Part" [(KStr "name", VNone); (KStr "n", tower 3)]).
Proof.
  split; [reflexivity|]. split; [|vm_compute; reflexivity]. repeat split; try discriminate; intros s [].
Qed.

(** ** C05 *)
Section Diff.
Variable non_serializable non_data_eq : string -> list string.
Variable subclass : string -> string -> bool.
Variable str_key : key -> string.
Variable str_nat : nat -> string.
Notation data_eq := (data_eq non_serializable non_data_eq).
Notation diff := (diff non_serializable non_data_eq subclass str_key str_nat).

(** C05a: an empty diff means data equality (objects carry a serialised name). *)
Theorem C05_empty_diff_equal :
  forall v w path, wf_val v -> wf_val w -> named non_serializable w ->
    diff v w path = Ok (mkDiff [] [] []) -> data_eq v w = true.
Proof. intros v w path W1 W2 N H. eapply empty_diff_data_eq; eauto. Qed.

Theorem C05_same_value :
  forall v path, wf_val v -> nan_free v -> everywhere (fun v => forall c, v <> VClass c true) v ->
    diff v v path = Ok (mkDiff [] [] []).
Proof. intros v path W N C. apply diff_same; auto. Qed.

Theorem C05_same_keys :
  forall d e path, wf_val (VDict d) -> wf_val (VDict e) ->
    diff (VDict d) (VDict e) path = Ok (mkDiff [] [] []) ->
    forall k, In k (map fst d) <-> In k (map fst e).
Proof.
  intros d e path W1 W2 H. unfold DataModel.diff in H. rewrite diff_fuel_S in H. cbn [seq_of isinstance_of negb] in H.
  destruct (dict_diff_empty _ _ _ _ _ _ _ d e (wf_dict_nodup _ W1) (wf_dict_nodup _ W2) H) as [L K].
  assert (I : incl (map fst d) (map fst e)).
  { intros k I. apply key_in_item in I. destruct I as [x I]. destruct (K k x I) as [y [Q _]]. apply lookup_In in Q. eapply in_key; eauto. }
  intros k. split; [apply I|]. apply NoDup_length_incl; auto; [apply wf_dict_nodup; auto|rewrite !map_length; lia].
Qed.

(** C05d: nothing is reported by mistake: a reported difference sits at a path where both
    sides differ, and paths extend the path of the start. *)
Theorem C05_differences :
  forall v w path r, diff v w path = Ok r ->
    (forall p a b, In (p, a, b) (different_values r) -> reach str_key str_nat path v w p a b /\ data_eq a b = false)
    /\ (forall p a b, In (p, a, b) (invalid_types r) ->
          reach str_key str_nat path v w p a b /\ isinstance_of subclass a b = false)
    /\ (forall p first, In (p, first) (missing_attributes r) ->
          exists q a b k, reach str_key str_nat path v w q a b /\ p = (q ++ "/" ++ str_key k)%string
            /\ if first then shows non_serializable b k
                             /\ (~ shows non_serializable a k \/ (k = KStr "name" /\ exists c d, a = VObj c d))
               else shows non_serializable a k /\ ~ shows non_serializable b k).
Proof. intros v w path r H. exact (diff_good _ _ _ _ _ _ _ _ _ _ H). Qed.

Theorem C05_paths :
  forall v w path p a b, reach str_key str_nat path v w p a b -> exists s, p = (path ++ s)%string.
Proof. intros. eapply reach_path; eauto. Qed.

(** C05f: the comparison always ends, whatever the values. *)
Theorem C05_terminates :
  forall v w path, diff v w path <> Err OutOfFuel.
Proof. intros v w path. apply no_out_of_fuel. lia. Qed.

(** C05g: two objects that differ somewhere are always reported to differ by a name
    missing in the first one, though both have a name. *)
Theorem C05_missing_name_refuted :
  forall c d e path r, wf_val (VObj c d) -> wf_val (VObj c e) ->
    (forall k, In k (map fst e) <-> In k (map fst d)) -> has_name non_serializable (VObj c e) ->
    data_eq (VObj c d) (VObj c e) = false ->
    diff (VObj c d) (VObj c e) path = Ok r ->
    In ((path ++ "/" ++ str_key (KStr "name"))%string, true) (missing_attributes r).
Proof. intros c d e path r W1 W2 K N E H. exact (name_reported _ _ _ _ _ _ c d e path r W1 W2 K N E H). Qed.

(** C05i: when the second dictionary is the larger one, values are reported in the wrong
    order: the value of the second value first. *)
Theorem C05_swapped_refuted :
  forall k k' a b x path, a <> b -> k <> k' ->
    diff (VDict [(k, VInt a)]) (VDict [(k, VInt b); (k', x)]) path
    = Ok (mkDiff [((path ++ "/" ++ str_key k)%string, VInt b, VInt a)] [((path ++ "/" ++ str_key k')%string, true)] []).
Proof.
  intros k k' a b x path Hab Hk. unfold DataModel.diff. simpl. rewrite key_eqb_refl.
  assert (E : key_eqb k' k = false) by (apply key_eqb_neq; auto). rewrite E.
  assert (E' : Z.eqb b a = false) by (apply Z.eqb_neq; auto). simpl. rewrite E'. reflexivity.
Qed.

(** C05h: True and 1 are data-equal, but the diff of 1 with True reports their types;
    comparing two DessiaObject classes raises. *)
Theorem C05_types_refuted :
  forall path, data_eq (VInt 1) (VBool true) = true
    /\ diff (VInt 1) (VBool true) path = Ok (mkDiff [] [] [(path, VInt 1, VBool true)])
    /\ forall c c' b, data_eq (VClass c true) (VClass c' b) = true /\ diff (VClass c true) (VClass c' b) path = Err TypeError.
Proof. intros path. repeat split. Qed.
End Diff.
Print Assumptions C05_empty_diff_equal.
Print Assumptions C05_same_value.
Print Assumptions C05_same_keys.
Print Assumptions C05_differences.
Print Assumptions C05_paths.
Print Assumptions C05_terminates.
Print Assumptions C05_missing_name_refuted.
Print Assumptions C05_swapped_refuted.
Print Assumptions C05_types_refuted.

Definition test_diff := diff none_listed none_listed (fun _ _ => false)
  (fun k => match k with KStr s => s | _ => "?" end) (fun n => match n with O => "0" | S O => "1" | _ => "n" end).
Example C05_empty_diff_equal_ex :
  test_diff (assembly VList "a") (assembly VTuple "b") "#" = Ok (mkDiff [] [] [])
  /\ named none_listed (assembly VTuple "b").
Proof.
  split; [reflexivity|]. unfold named. repeat (constructor; simpl; auto); intros [].
Qed.
Example C05_differences_ex :
  test_diff (VList [VInt 1; VDict [(KStr "k", VInt 2)]]) (VTuple [VInt 1; VDict [(KStr "k", VInt 3); (KStr "l", VNone)]]) "#"
  = Ok (mkDiff [("#/1/k", VInt 3, VInt 2)] [("#/1/l", true)] []).
Proof. reflexivity. Qed.
Example C05_missing_name_refuted_ex :
  test_diff (part "a" (VInt 1)) (part "a" (VInt 2)) "#"
  = Ok (mkDiff [("#/n", VInt 2, VInt 1)] [("#/name", true)] []).
Proof. reflexivity. Qed.

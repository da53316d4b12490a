(** What the hash of data is made of: theorems about the hash of sequences and dictionaries. *)
From Coq Require Import ZArith QArith Bool String List Lia Permutation.
From Verif Require Import Base PyValue DataModel DataSpec DataProofs.
Import ListNotations.
Open Scope string_scope.
Open Scope list_scope.

Section Hash.
Variable non_serializable non_data_eq non_data_hash : string -> list string.
Variable hash_none : Z.
Variable hash_int : Z -> Z.
Variable hash_float : pyfloat -> Z.
Variable hash_class : string -> Z.
Variable hash_key : key -> Z.
Variable float_of : Z -> option Z.
Notation choose_hash := (choose_hash non_serializable non_data_eq non_data_hash hash_none hash_int hash_float hash_class hash_key float_of).

Lemma last_of_app : forall (A : Type) (m : list A) x y, last_of x (m ++ [y]) = y.
Proof. intros A m. induction m as [|z m IH]; intros x y; [reflexivity|]. cbn [app last_of]. apply IH. Qed.

(** The hash of a sequence is made of its length, its first and its last element. *)
Theorem C04_sequence :
  choose_hash (VList []) = Some 0%Z /\
  (forall x, choose_hash (VList [x]) = choose_hash x) /\
  (forall x m y hx hy, choose_hash x = Some hx -> choose_hash y = Some hy ->
     choose_hash (VList (x :: m ++ [y])) = Some (Z.of_nat (2 + length m) * hx + 5381 * hy)%Z) /\
  (forall l, choose_hash (VTuple l) = choose_hash (VList l)).
Proof.
  split; [reflexivity|]. split; [|split; [|reflexivity]].
  - intros x. cbn [DataModel.choose_hash map sequence_hash omul].
    destruct (choose_hash x) as [[|h|h]|]; reflexivity.
  - intros x m y hx hy Hx Hy.
    change (choose_hash (VList (x :: m ++ [y]))) with (sequence_hash (map choose_hash (x :: m ++ [y]))).
    rewrite map_cons, map_app. cbn [map]. rewrite Hx, Hy.
    unfold sequence_hash. destruct (map choose_hash m ++ [Some hy]) as [|a b] eqn:E.
    { destruct (map choose_hash m); discriminate. }
    rewrite <- E, last_of_app. cbn [length omul oadd option_map].
    rewrite app_length, map_length. cbn [length]. repeat f_equal. lia.
Qed.

(** So what stands in the middle does not count. *)
Theorem C04_middle : forall x y m m',
  length m = length m' -> choose_hash (VList (x :: m ++ [y])) = choose_hash (VList (x :: m' ++ [y])).
Proof.
  intros x y m m' L.
  change (sequence_hash (map choose_hash (x :: m ++ [y])) = sequence_hash (map choose_hash (x :: m' ++ [y]))).
  rewrite !map_cons, !map_app. cbn [map]. unfold sequence_hash.
  destruct (map choose_hash m ++ [choose_hash y]) as [|a b] eqn:E; [destruct (map choose_hash m); discriminate|].
  destruct (map choose_hash m' ++ [choose_hash y]) as [|a' b'] eqn:E'; [destruct (map choose_hash m'); discriminate|].
  rewrite <- E, <- E', !last_of_app. cbn [length]. rewrite !app_length, !map_length, L. reflexivity.
Qed.

Definition all_str {A} (d : list (key * A)) : Prop := forall k x, In (k, x) d -> exists s, k = KStr s.
Definition all_int {A} (d : list (key * A)) : Prop := forall k x, In (k, x) d -> exists z, k = KInt z.

(** The order of texts and of integers. *)
Definition comes_first (a b : key) : Prop :=
  match a, b with
  | KStr s, KStr t => String.compare s t <> Gt
  | KInt x, KInt y => (x <= y)%Z
  | _, _ => False
  end.

Definition hashed (d : list (key * val)) : list (key * option Z) :=
  map (fun kv => (fst kv, choose_hash (snd kv))) d.

Lemma comes_first_leb a b : comes_first a b -> key_leb a b = true.
Proof.
  destruct a as [s|x|n], b as [t|y|m]; simpl; try contradiction.
  - intros H. unfold String.leb. destruct (String.compare s t); congruence.
  - intros H. apply Z.leb_le. exact H.
Qed.

Lemma orderable_kinds {A} (d : list (key * A)) : all_str d \/ all_int d -> orderable d = true.
Proof.
  intros H. assert (O : forallb (fun kv : key * A => match fst kv with KStr _ => true | _ => false end) d
         || forallb (fun kv : key * A => match fst kv with KInt _ => true | _ => false end) d = true).
  { apply orb_true_iff. destruct H as [H|H]; [left|right]; apply forallb_forall; intros [k x] I;
      destruct (H k x I) as [s ->]; reflexivity. }
  unfold orderable. destruct d as [|p [|q d]]; try reflexivity; exact O.
Qed.

(** The hash of a dictionary with keys of one kind is made of its length and of the values of
    its least and greatest keys. *)
Theorem C04_dict :
  choose_hash (VDict []) = Some 0%Z /\
  (forall k x, choose_hash (VDict [(k, x)]) = choose_hash x) /\
  (forall d a x b y hx hy,
     NoDup (map fst d) -> (all_str d \/ all_int d) -> a <> b ->
     In (a, x) d -> In (b, y) d ->
     (forall k, In k (map fst d) -> comes_first a k /\ comes_first k b) ->
     choose_hash x = Some hx -> choose_hash y = Some hy ->
     choose_hash (VDict d) = Some (Z.of_nat (length d) * hx + 313 * hy)%Z).
Proof.
  split; [reflexivity|]. split.
  - intros k x. cbn [DataModel.choose_hash map fst snd dict_hash orderable least fold_left length].
    destruct (choose_hash x) as [[|h|h]|]; reflexivity.
  - intros d a x b y hx hy N K AB Ia Ib F Hx Hy.
    change (choose_hash (VDict d)) with (dict_hash hash_key (hashed d)).
    assert (K' : all_str (hashed d) \/ all_int (hashed d)).
    { destruct K as [K|K]; [left|right]; intros k h I; apply in_map_iff in I as ([k' v] & E & I);
        injection E as <- _; exact (K k' v I). }
    assert (O := orderable_kinds _ K').
    assert (Ia' : In (a, Some hx) (hashed d)).
    { apply in_map_iff. exists (a, x). split; [cbn; rewrite Hx; reflexivity | exact Ia]. }
    assert (Ib' : In (b, Some hy) (hashed d)).
    { apply in_map_iff. exists (b, y). split; [cbn; rewrite Hy; reflexivity | exact Ib]. }
    assert (KE : map fst (hashed d) = map fst d) by (unfold hashed; rewrite map_map; reflexivity).
    assert (LE : length (hashed d) = length d) by apply map_length.
    rewrite <- KE in N, F. rewrite <- LE. clear KE LE.
    destruct (hashed d) as [|p [|q e]].
    + destruct Ia'.
    + destruct Ia' as [Ea|[]], Ib' as [Eb|[]]. congruence.
    + assert (OK := orderable_one_kind _ _ _ O).
      unfold dict_hash. rewrite O.
      assert (X1 := OK). apply (least_spec hash_none hash_int float_of) in X1 as [I1 L1]. assert (X2 := OK). apply (greatest_spec hash_none hash_int float_of) in X2 as [I2 L2].
      assert (FI : forall u, In u (p :: q :: e) -> In (fst u) (map fst (p :: q :: e))).
      { intros u Hu. apply in_map. exact Hu. }
      assert (SK : forall u v, In u (p :: q :: e) -> In v (p :: q :: e) -> same_kind (fst u) (fst v)) by (exact OK).
      assert (E1 : least p (q :: e) = (a, Some hx)).
      { assert (Q : fst (least p (q :: e)) = a).
        { apply key_leb_antisym; [exact (SK _ _ I1 Ia') | exact (L1 _ Ia') |].
          apply comes_first_leb. apply (F _ (FI _ I1)). }
        destruct (least p (q :: e)) as [k h]. cbn in Q. subst k. f_equal.
        eapply nodup_value; eauto. }
      assert (E2 : greatest p (q :: e) = (b, Some hy)).
      { assert (Q : fst (greatest p (q :: e)) = b).
        { apply key_leb_antisym; [exact (SK _ _ I2 Ib') | | exact (L2 _ Ib')].
          apply comes_first_leb. apply (F _ (FI _ I2)). }
        destruct (greatest p (q :: e)) as [k h]. cbn in Q. subst k. f_equal.
        eapply nodup_value; eauto. }
      rewrite E1, E2. reflexivity.
Qed.

(** With a text and an integer among its keys, everything counts. *)
Theorem C04_mixed : forall d s z x y,
  In (KStr s, x) d -> In (KInt z, y) d ->
  forall hs, Forall2 (fun kv h => choose_hash (snd kv) = Some h) d hs ->
  choose_hash (VDict d)
  = Some (fold_right Z.add 0%Z (map (fun kv => hash_key (fst kv)) d) + fold_right Z.add 0%Z hs)%Z.
Proof.
  intros d s z x y Is Iz hs H.
  change (choose_hash (VDict d)) with (dict_hash hash_key (hashed d)).
  assert (O : orderable (hashed d) = false).
  { destruct (orderable (hashed d)) eqn:O; [|reflexivity]. exfalso.
    assert (Is' : In (KStr s, choose_hash x) (hashed d)) by (apply in_map_iff; exists (KStr s, x); auto).
    assert (Iz' : In (KInt z, choose_hash y) (hashed d)) by (apply in_map_iff; exists (KInt z, y); auto).
    destruct (hashed d) as [|p [|q e]].
    - destruct Is'.
    - destruct Is' as [Es|[]], Iz' as [Ez|[]]. congruence.
    - assert (OK := orderable_one_kind _ _ _ O). exact (OK _ _ Is' Iz'). }
  assert (S : osum (map (fun kh : key * option Z => oadd (Some (hash_key (fst kh))) (snd kh)) (hashed d))
    = Some (fold_right Z.add 0%Z (map (fun kv => hash_key (fst kv)) d) + fold_right Z.add 0%Z hs)%Z).
  { clear O Is Iz. induction H as [|[k v] h d hs Hv H IH]; [reflexivity|].
    unfold hashed, osum in *. cbn [map fold_right fst snd] in *. rewrite Hv, IH. cbn [oadd].
    f_equal. lia. }
  unfold dict_hash. destruct (hashed d) as [|p e] eqn:E.
  - destruct d; [destruct Is | discriminate].
  - rewrite O. exact S.
Qed.
End Hash.
Print Assumptions C04_sequence.
Print Assumptions C04_middle.
Print Assumptions C04_dict.
Print Assumptions C04_mixed.

Definition plain_hash := choose_hash (fun _ => []) (fun _ => []) (fun _ => []) 7 (fun z => z) (fun _ => 0%Z)
  (fun _ => 11%Z) (fun k => match k with KInt z => z | _ => 13%Z end) (fun z => Some z).

Example C04_sequence_example :
  plain_hash (VTuple [VInt 3; VInt 8; VInt 5]) = Some (3 * 3 + 5381 * 5)%Z /\
  plain_hash (VList [VInt 3; VStr "x"; VInt 5]) = Some (3 * 3 + 5381 * 5)%Z /\
  plain_hash (VList [VInt 3]) = Some 3%Z.
Proof. vm_compute. auto. Qed.

Example C04_dict_example :
  plain_hash (VDict [(KInt 2, VInt 5); (KInt 1, VInt 4); (KInt 3, VInt 6)]) = Some (3 * 4 + 313 * 6)%Z /\
  plain_hash (VDict [(KInt 2, VInt 5); (KStr "a", VInt 4)]) = Some (2 + 5 + 13 + 4)%Z /\
  plain_hash (VDict [(KStr "a", VInt 4)]) = Some 4%Z.
Proof. vm_compute. auto. Qed.

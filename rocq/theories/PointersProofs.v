(** Proofs about serialisation with pointers. *)
From Coq Require Import ZArith Bool String Ascii Lia List.
From Verif Require Import Base BaseProofs PyValue DataSpec DataProofs PathsModel PathsSpec PathsProofs SerialModel SerialSpec SerialProofs PointersModel PointersSpec.
Import ListNotations.
Open Scope string_scope.
Open Scope list_scope.
Local Notation RK := (KStr "$ref").

Lemma update_keys {A} (items : list (key * A)) : forall (d : list (key * A)) k, In k (map fst (update d items)) <-> In k (map fst d) \/ In k (map fst items).
Proof.
  induction items as [|[j y] items IH]; simpl; intros d k; [tauto|]. rewrite IH, set_key_keys.
  destruct (has_key j d) eqn:E.
  - apply has_key_In in E. split; intros H; intuition (subst; auto).
  - rewrite in_app_iff. simpl. tauto.
Qed.
Lemma in_keys {A} k (x : A) (d : list (key * A)) : In (k, x) d -> In k (map fst d).
Proof. intros H. apply in_map_iff. exists (k, x). auto. Qed.
Lemma keys_in {A} k (d : list (key * A)) : In k (map fst d) -> exists x, In (k, x) d.
Proof. intros H. apply in_map_iff in H. destruct H as [[j x] [E I]]. simpl in E. subst. eauto. Qed.
Lemma keys_fun {A} k (x y : A) (d : list (key * A)) : NoDup (map fst d) -> In (k, x) d -> In (k, y) d -> x = y.
Proof. intros N H1 H2. apply (In_lookup k x d N) in H1. apply (In_lookup k y d N) in H2. congruence. Qed.

Lemma NoDup_app_intro {A} (l m : list A) : NoDup l -> NoDup m -> (forall k, In k l -> In k m -> False) -> NoDup (l ++ m).
Proof.
  induction l as [|x l IH]; simpl; intros N M D; auto. inversion N as [|? ? N1 N2]; subst. constructor; eauto. rewrite in_app_iff.
  intros [Z|Z]; eauto.
Qed.
Lemma alike_sym s : forall t, alike s t -> alike t s.
Proof.
  induction s using val_ind'; intros t A; inversion A as [v0 L0|l0 m0 F0|d0 e0 K0 F0]; subst; try (constructor; auto; fail); try (destruct L0; fail).
  - constructor. clear A. induction F0 as [|x y l m R F IH]; constructor; inversion H; subst; auto.
  - rewrite Forall_forall in H. constructor.
    + intros k. symmetry. apply K0.
    + intros k x y X Y. apply (H (k, y) Y). eauto.
Qed.

Section P.
Variable id_name : nat -> string.
Variable str_nat : nat -> string.
Notation path_to_refs := (path_to_refs id_name).
Notation reference := (reference id_name).

(** ** Values being built *)
Definition isref (ids : list nat) (i : nat) (j : jval) : Prop :=
  exists d, j = JDict d /\ NoDup (map fst d) /\ lookup RK d = Some (JLeaf (VStr (path_to_refs i)))
   /\ forall k x, In (k, x) d -> k = RK \/ exists m, In m ids /\ x = reference m.

Inductive fine (n : nat) (ids : list nat) : jval -> Prop :=
| fn_leaf v : leaf v -> fine n ids (JLeaf v)
| fn_list l : (forall x, In x l -> fine n ids x) -> fine n ids (JList l)
| fn_dict d : NoDup (map fst d) -> ~ In RK (map fst d) -> (forall k x, In (k, x) d -> fine n ids x) -> fine n ids (JDict d)
| fn_cell i : i < n -> fine n ids (JCell i)
| fn_ref i j : In i ids -> isref ids i j -> fine n ids j.

Inductive den (cs : list (list (key * jval))) (ids : list nat) : jval -> val -> Prop :=
| de_leaf v : leaf v -> den cs ids (JLeaf v) v
| de_list l m : length l = length m ->
    (forall n x y, nth_error l n = Some x -> nth_error m n = Some y -> den cs ids x y) -> den cs ids (JList l) (VList m)
| de_dict d e : NoDup (map fst d) -> ~ In RK (map fst d) -> (forall k, In k (map fst d) <-> In k (map fst e)) ->
    (forall k x y, In (k, x) d -> In (k, y) e -> den cs ids x y) -> den cs ids (JDict d) (VDict e)
| de_cell i s : i < length cs -> den cs ids (JDict (nth i cs [])) s -> den cs ids (JCell i) s
| de_ref i j s : In i ids -> isref ids i j -> den cs ids (JCell i) s -> den cs ids j s.

Inductive reach (cs : list (list (key * jval))) (ids : list nat) : jval -> list string -> nat -> Prop :=
| rc_cell i : reach cs ids (JCell i) [] i
| rc_ref i j : In i ids -> isref ids i j -> reach cs ids j [] i
| rc_list l n x q i : nth_error l n = Some x -> reach cs ids x q i -> reach cs ids (JList l) (str_nat n :: q) i
| rc_dict d s x q i : NoDup (map fst d) -> ~ In RK (map fst d) -> In (KStr s, x) d -> reach cs ids x q i -> reach cs ids (JDict d) (s :: q) i
| rc_in i s q m : i < length cs -> reach cs ids (JDict (nth i cs [])) (s :: q) m -> reach cs ids (JCell i) (s :: q) m
| rc_thru i j s q m : In i ids -> isref ids i j -> reach cs ids (JCell i) (s :: q) m -> reach cs ids j (s :: q) m.

Lemma isref_mono ids ids' i j : incl ids ids' -> isref ids i j -> isref ids' i j.
Proof.
  intros I [d [-> [N [L H]]]]. exists d. repeat split; auto. intros k x K. destruct (H k x K) as [E|[m [M E]]]; eauto.
Qed.
Lemma isref_reference ids i : isref ids i (reference i).
Proof.
  exists [(RK, JLeaf (VStr (path_to_refs i)))]. repeat split.
  - repeat constructor. intros [].
  - intros k x [E|[]]. inversion E. auto.
Qed.
Lemma fine_mono n ids n' ids' j : n <= n' -> incl ids ids' -> fine n ids j -> fine n' ids' j.
Proof.
  intros L I. induction 1; try (constructor; auto; fail).
  - constructor. lia.
  - eapply fn_ref; [apply I; eassumption|eapply isref_mono; eauto].
Qed.
Lemma den_mono cs ids l ids' j s : incl ids ids' -> den cs ids j s -> den (cs ++ l) ids' j s.
Proof.
  intros I. induction 1; try (constructor; auto; fail).
  - apply de_cell; [rewrite app_length; lia|]. rewrite app_nth1 by auto. auto.
  - eapply de_ref; [apply I; eassumption|eapply isref_mono; eauto|auto].
Qed.
Lemma reach_mono cs ids l ids' j q i : incl ids ids' -> reach cs ids j q i -> reach (cs ++ l) ids' j q i.
Proof.
  intros I. induction 1.
  - constructor.
  - eapply rc_ref; [apply I; eassumption|eapply isref_mono; eauto].
  - eapply rc_list; eauto.
  - eapply rc_dict; eauto.
  - apply rc_in; [rewrite app_length; lia|]. rewrite app_nth1 by auto. auto.
  - eapply rc_thru; [apply I; eassumption|eapply isref_mono; eauto|auto].
Qed.
Lemma reach_cell_ref cs ids i j q m : In i ids -> isref ids i j -> reach cs ids (JCell i) q m -> reach cs ids j q m.
Proof.
  intros I R H. inversion H as [|i0 j0 I0 R0| | |i0 s q0 m0 L H0|i0 j0 s q0 m0 I0 R0]; subst.
  - eapply rc_ref; eauto.
  - destruct R0 as [? [? _]]; discriminate.
  - eapply rc_thru; eauto.
  - destruct R0 as [? [? _]]; discriminate.
Qed.
Lemma den_alike cs ids j s : den cs ids j s -> forall t, alike s t -> den cs ids j t.
Proof.
  induction 1 as [v L|l m E F IH|d e N R K F IH|i s L D IH|i j s I R D IH]; intros t A.
  - inversion A; subst; try (destruct L; fail). constructor; auto.
  - inversion A as [v0 L0|l0 m0 F0|d0 e0]; subst.
    + destruct L0.
    + constructor.
      * rewrite E. clear -F0. induction F0; simpl; auto.
      * intros n x z X Z. assert (exists y, nth_error m n = Some y /\ alike y z) as [y [Y1 Y2]].
        { clear -F0 Z. revert n Z. induction F0; intros [|n] Z; simpl in *; try discriminate.
          - inversion Z; subst. eauto.
          - eauto. }
        eauto.
  - inversion A as [v0 L0|l0 m0 F0|d0 e0 K0 F0]; subst.
    + destruct L0.
    + constructor; auto.
      * intros k. rewrite K. apply K0.
      * intros k x z X Z. destruct (keys_in k e) as [y Y]; [apply K; eapply in_keys; eauto|]. eauto.
  - apply de_cell; auto.
  - eapply de_ref; eauto.
Qed.
End P.

(** ** Building *)
Section B.
Variable non_serializable : string -> list string.
Variable jsonable : val -> bool.
Variable annotation_of_class : string -> string.
Variable standalone : string -> bool.
Variable str_key : key -> string.
Variable str_nat : nat -> string.
Variable id_name : nat -> string.
Variable same : val -> val -> bool.
Hypothesis str_key_str : forall s, str_key (KStr s) = s.
Hypothesis str_nat_good : forall n, good_name (str_nat n).
Notation ser := (ser non_serializable jsonable annotation_of_class standalone str_key str_nat id_name same).
Notation serialize := (serialize non_serializable jsonable annotation_of_class).
Notation occurs := (occurs non_serializable).
Notation kept c := (fun k => negb (key_within k (non_serializable c)) && negb (is_private k)).
Notation isref := (isref id_name).
Notation fine := (fine id_name).
Notation den := (den id_name).
Notation reach := (reach id_name str_nat).
Notation reference := (reference id_name).

(** whether equal objects are to have serialisations alike, for objects in [dom] *)
Variable AL : Prop.
Variable dom : val -> Prop.
Hypothesis AL_ok : AL -> forall x y s t, dom x -> dom y -> same x y = true -> serialize x = Ok s -> serialize y = Ok t -> alike s t.

Definition Inv (st : pstate) : Prop :=
  (forall i, i < length (cells st) -> fine i (id_memo st) (JDict (nth i (cells st) [])) /\ ~ In RK (map fst (nth i (cells st) []))
                                      /\ NoDup (map fst (nth i (cells st) [])))
  /\ (forall i, In i (id_memo st) -> i < length (cells st))
  /\ (forall e, In e (memo st) -> e_id e < length (cells st))
  /\ NoDup (id_memo st)
  /\ (AL -> forall e, In e (memo st) -> dom (e_key e) /\ exists s, serialize (e_key e) = Ok s /\ den (cells st) (id_memo st) (JCell (e_id e)) s)
  /\ (AL -> forall i, i < length (cells st) -> exists c d s, dom (VObj c d) /\ serialize (VObj c d) = Ok s /\ den (cells st) (id_memo st) (JCell i) s).
Definition G (st : pstate) (x : val) (j : jval) : Prop :=
  fine (length (cells st)) (id_memo st) j /\ (AL -> forall y, serialize x = Ok y -> den (cells st) (id_memo st) j y).
Definition ext (st st' : pstate) : Prop := (exists l, cells st' = cells st ++ l) /\ incl (id_memo st) (id_memo st').
Definition newp (st st' : pstate) (p : list string) (j : jval) : Prop :=
  forall e, In e (memo st') -> In e (memo st) \/ exists q, e_path e = p ++ q /\ Forall good_name q /\ reach (cells st') (id_memo st') j q (e_id e).

Lemma ext_refl st : ext st st.
Proof. split; [exists []; rewrite app_nil_r; auto|apply incl_refl]. Qed.
Lemma ext_trans a b c : ext a b -> ext b c -> ext a c.
Proof.
  intros [[l L] I] [[m M] J]. split; [|eapply incl_tran; eauto]. exists (l ++ m). rewrite M, L. rewrite app_assoc. auto.
Qed.
Lemma G_ext st st' x j : ext st st' -> G st x j -> G st' x j.
Proof.
  intros [[l L] I] [H1 H2]. split.
  - eapply fine_mono; [|eauto|eauto]. rewrite L, app_length. lia.
  - intros A y Y. rewrite L. apply den_mono with (ids := id_memo st); auto.
Qed.
Lemma reach_ext st st' j q i : ext st st' -> reach (cells st) (id_memo st) j q i -> reach (cells st') (id_memo st') j q i.
Proof. intros [[l L] I] R. rewrite L. apply reach_mono with (ids := id_memo st); auto. Qed.

Definition works (v : val) : Prop := forall p st, Inv st ->
  exists j st', ser v p st = Ok (j, st') /\ ext st st' /\ Inv st' /\ G st' v j /\ newp st st' p j.

Lemma items_works keep d : (forall k x, In (k, x) d -> keep k x = true -> works x /\ exists s, k = KStr s /\ good_name s) ->
  forall p st, Inv st -> exists r st', ser_items str_key ser keep p d st = Ok (r, st') /\ ext st st' /\ Inv st'
   /\ Forall2 (fun kx kj => fst kx = fst kj /\ G st' (snd kx) (snd kj)) (filter (fun kx => keep (fst kx) (snd kx)) d) r
   /\ (forall e, In e (memo st') -> In e (memo st) \/ exists s j q, In (KStr s, j) r /\ e_path e = p ++ s :: q
         /\ Forall good_name (s :: q) /\ reach (cells st') (id_memo st') j q (e_id e)).
Proof.
  induction d as [|[k x] d IH]; intros H p st I; simpl.
  - exists [], st. split; auto. split; [apply ext_refl|]. split; auto.
  - destruct (keep k x) eqn:K.
    + destruct (H k x) as [Wx [s [-> GN]]]; simpl; auto. destruct (Wx (p ++ [str_key (KStr s)]) st I) as [j [st1 [E1 [X1 [I1 [G1 N1]]]]]].
      destruct (IH (fun k0 x0 M => H k0 x0 (or_intror M)) p st1 I1) as [r [st2 [E2 [X2 [I2 [F2 N2]]]]]].
      exists ((KStr s, j) :: r), st2. rewrite E1. cbn [bind snd fst]. rewrite E2. cbn [bind snd fst]. split; auto.
      split; [eapply ext_trans; eauto|]. split; auto. split.
      * constructor; auto. simpl. split; auto. eapply G_ext; eauto.
      * intros e Me. destruct (N2 e Me) as [M1|[t [j' [q [Q1 [Q2 [Q3 Q4]]]]]]].
        -- destruct (N1 e M1) as [M0|[q [Q1 [Q2 Q3]]]]; auto. right. exists s, j, q. simpl. split; auto.
           split; [rewrite Q1, str_key_str, <- app_assoc; auto|]. split; auto. eapply reach_ext; eauto.
        -- right. exists t, j', q. simpl. auto.
    + apply IH; auto. intros. apply H; simpl; auto.
Qed.

Lemma elements_works l : (forall x, In x l -> works x) -> forall p n st, Inv st ->
  exists r st', ser_elements str_nat ser p n l st = Ok (r, st') /\ ext st st' /\ Inv st' /\ Forall2 (G st') l r
   /\ (forall e, In e (memo st') -> In e (memo st) \/ exists m j q, nth_error r m = Some j /\ e_path e = p ++ str_nat (n + m) :: q
         /\ Forall good_name (str_nat (n + m) :: q) /\ reach (cells st') (id_memo st') j q (e_id e)).
Proof.
  induction l as [|x l IH]; intros H p n st I; simpl.
  - exists [], st. split; auto. split; [apply ext_refl|]. split; auto.
  - destruct (H x (or_introl eq_refl) (p ++ [str_nat n]) st I) as [j [st1 [E1 [X1 [I1 [G1 N1]]]]]].
    destruct (IH (fun x0 M => H x0 (or_intror M)) p (S n) st1 I1) as [r [st2 [E2 [X2 [I2 [F2 N2]]]]]].
    exists (j :: r), st2. rewrite E1. cbn [bind snd fst]. rewrite E2. cbn [bind snd fst]. split; auto.
    split; [eapply ext_trans; eauto|]. split; auto. split.
    + constructor; auto. eapply G_ext; eauto.
    + intros e Me. destruct (N2 e Me) as [M1|[m [j' [q [Q1 [Q2 [Q3 Q4]]]]]]].
      * destruct (N1 e M1) as [M0|[q [Q1 [Q2 Q3]]]]; auto. right. exists 0, j, q. simpl. rewrite Nat.add_0_r. split; auto.
        split; [rewrite Q1, <- app_assoc; auto|]. split; auto. eapply reach_ext; eauto.
      * right. exists (S m), j', q. simpl. rewrite Nat.add_succ_r. auto.
Qed.

Lemma dict_works keep d : NoDup (map fst d) ->
  (forall k x, In (k, x) d -> keep k = true -> works x /\ exists s, k = KStr s /\ good_name s) ->
  forall p st, Inv st -> exists r st', ser_dict str_key ser keep p d st = Ok (r, st') /\ ext st st' /\ Inv st'
   /\ NoDup (map fst r)
   /\ (forall k, In k (map fst r) <-> In k (map fst (filter (fun kx => keep (fst kx)) d)))
   /\ (forall k j, In (k, j) r -> exists x, In (k, x) d /\ keep k = true /\ G st' x j)
   /\ (forall e, In e (memo st') -> In e (memo st) \/ exists s j q, In (KStr s, j) r /\ e_path e = p ++ s :: q
         /\ Forall good_name (s :: q) /\ reach (cells st') (id_memo st') j q (e_id e)).
Proof.
  intros N H p st I. unfold ser_dict. cbv zeta.
  set (k1 := fun (k : key) (x : val) => keep k && _). set (k2 := fun (k : key) (x : val) => keep k && match x with VList _ | VTuple _ => true | _ => false end).
  set (k3 := fun (k : key) (x : val) => keep k && match x with VDict _ => true | _ => false end).
  assert (K1 : forall k x, k1 k x = true -> keep k = true) by (unfold k1; intros; apply andb_true_iff in H0; tauto).
  assert (K2 : forall k x, k2 k x = true -> keep k = true) by (unfold k2; intros; apply andb_true_iff in H0; tauto).
  assert (K3 : forall k x, k3 k x = true -> keep k = true) by (unfold k3; intros; apply andb_true_iff in H0; tauto).
  destruct (items_works k1 d (fun k x M K => H k x M (K1 k x K)) p st I) as [a [sa [Ea [Xa [Ia [Fa Na]]]]]].
  destruct (items_works k2 d (fun k x M K => H k x M (K2 k x K)) p sa Ia) as [b [sb [Eb [Xb [Ib [Fb Nb]]]]]].
  destruct (items_works k3 d (fun k x M K => H k x M (K3 k x K)) p sb Ib) as [c [sc [Ec [Xc [Ic [Fc Nc]]]]]].
  exists (a ++ b ++ c), sc. rewrite Ea. cbn [bind snd fst]. rewrite Eb. cbn [bind snd fst]. rewrite Ec. cbn [bind snd fst].
  assert (MEM : forall kk s r, Forall2 (fun kx kj => fst kx = fst kj /\ G s (snd kx) (snd kj)) (filter (fun kx : key * val => kk (fst kx) (snd kx)) d) r ->
     forall k j, In (k, j) r -> exists x, In (k, x) d /\ kk k x = true /\ G s x j).
  { intros kk s r F k j M. destruct (Forall2_in_right _ _ _ _ F M) as [[k' x] [M1 [M2 M3]]]. simpl in *. subst.
    apply filter_In in M1. simpl in M1. exists x. tauto. }
  pose proof (MEM k1 sa a Fa) as Ma. pose proof (MEM k2 sb b Fb) as Mb. pose proof (MEM k3 sc c Fc) as Mc. clear MEM.
  assert (ND : forall kk s r, Forall2 (fun kx kj => fst kx = fst kj /\ G s (snd kx) (snd kj)) (filter (fun kx : key * val => kk (fst kx) (snd kx)) d) r ->
     map fst r = map fst (filter (fun kx : key * val => kk (fst kx) (snd kx)) d)).
  { intros kk s r F. exact (Forall2_keys (G s) _ _ F). }
  pose proof (ND k1 sa a Fa) as Da. pose proof (ND k2 sb b Fb) as Db. pose proof (ND k3 sc c Fc) as Dc. clear ND.
  split; auto. split; [eapply ext_trans; [eauto|eapply ext_trans; eauto]|]. split; auto. split; [|split; [|split]].
  - assert (DJ : forall k1 k2 k, In k (map fst (filter (fun kx : key * val => k1 (fst kx) (snd kx)) d)) ->
               In k (map fst (filter (fun kx : key * val => k2 (fst kx) (snd kx)) d)) -> exists x, k1 k x = true /\ k2 k x = true).
    { clear -N. intros k1 k2 k A B. apply keys_in in A. apply keys_in in B. destruct A as [x A], B as [y B].
      apply filter_In in A. apply filter_In in B. simpl in *. destruct A as [A1 A2], B as [B1 B2].
      rewrite (keys_fun _ _ _ _ N B1 A1) in B2. eauto. }
    rewrite !map_app, Da, Db, Dc.
    assert (C : forall l m : list key, NoDup l -> NoDup m -> (forall k, In k l -> In k m -> False) -> NoDup (l ++ m)).
    { clear. induction l; simpl; intros m A B D; auto. inversion A; subst. constructor; eauto. rewrite in_app_iff. intros [Z|Z]; eauto. }
    apply C; [apply filter_nodup; auto| |].
    + apply C; [apply filter_nodup; auto|apply filter_nodup; auto|]. intros k A B.
      destruct (DJ _ _ _ A B) as [x [P Q]]. unfold k2, k3 in *. destruct x; rewrite ?andb_false_r in *; discriminate.
    + intros k A B. apply in_app_iff in B. destruct B as [B|B]; destruct (DJ _ _ _ A B) as [x [P Q]]; unfold k1, k2, k3 in *;
        destruct x; simpl in *; rewrite ?andb_false_r in *; discriminate.
  - intros k. rewrite !map_app, !in_app_iff, Da, Db, Dc. split.
    + intros [A|[A|A]]; apply keys_in in A; destruct A as [x A]; apply filter_In in A; simpl in A; destruct A as [A1 A2];
        apply in_keys with (x := x); apply filter_In; simpl; eauto.
    + intros A. apply keys_in in A. destruct A as [x A]. apply filter_In in A. simpl in A. destruct A as [A1 A2].
      destruct x; [left|left|left|left|left|right; left|right; left|right; right|left|left];
        eapply in_keys; apply filter_In; simpl; split; eauto; unfold k1, k2, k3; rewrite A2; reflexivity.
  - intros k j M. apply in_app_iff in M. rewrite in_app_iff in M. destruct M as [M|[M|M]].
    + destruct (Ma _ _ M) as [x [X1 [X2 X3]]]. exists x. split; auto. split; eauto. eapply G_ext; [|exact X3]. eapply ext_trans; eauto.
    + destruct (Mb _ _ M) as [x [X1 [X2 X3]]]. exists x. split; auto. split; eauto. eapply G_ext; [|exact X3]. auto.
    + destruct (Mc _ _ M) as [x [X1 [X2 X3]]]. exists x. split; auto. split; eauto.
  - intros e M. destruct (Nc e M) as [M1|[s [j [q [Q1 [Q2 [Q3 Q4]]]]]]].
    + destruct (Nb e M1) as [M2|[s [j [q [Q1 [Q2 [Q3 Q4]]]]]]].
      * destruct (Na e M2) as [M3|[s [j [q [Q1 [Q2 [Q3 Q4]]]]]]]; auto. right. exists s, j, q. rewrite in_app_iff.
        repeat (split; auto). eapply reach_ext; [|exact Q4]. eapply ext_trans; eauto.
      * right. exists s, j, q. rewrite !in_app_iff. repeat (split; auto). eapply reach_ext; eauto.
    + right. exists s, j, q. rewrite !in_app_iff. repeat (split; auto).
Qed.

Lemma set_memo_in v i p m e : In e (set_memo same v i p m) ->
  In e m \/ (e_id e = i /\ e_path e = p /\ (e_key e = v \/ exists e', In e' m /\ e_key e = e_key e' /\ same (e_key e') v = true)).
Proof.
  induction m as [|a m IH]; simpl.
  - intros [<-|[]]. right. auto.
  - destruct (same (e_key a) v) eqn:S; simpl.
    + intros [<-|M]; auto. right. simpl. split; auto. split; auto. right. exists a. auto.
    + intros [<-|M]; auto. destruct (IH M) as [M'|[M1 [M2 [M3|[e' [M3 [M4 M5]]]]]]]; auto.
      right. split; auto. split; auto. right. exists e'. auto.
Qed.
Lemma add_id_ext i st : ext st (add_id i st).
Proof.
  split; simpl; [exists []; rewrite app_nil_r; auto|]. destruct (memb Nat.eqb i (id_memo st)); [apply incl_refl|apply incl_appl; apply incl_refl].
Qed.
Lemma add_id_in i st : In i (id_memo (add_id i st)).
Proof.
  simpl. destruct (memb Nat.eqb i (id_memo st)) eqn:E; [apply memb_In in E; auto; apply Nat.eqb_eq|apply in_app_iff; simpl; auto].
Qed.
Lemma add_id_inv i st : i < length (cells st) -> Inv st -> Inv (add_id i st).
Proof.
  intros L [H1 [H2 [H3 [H5 [H4 H6]]]]]. pose proof (add_id_ext i st) as X. destruct X as [_ X]. split; [|split; [|split; [|split; [|split]]]].
  - intros k K. destruct (H1 k K) as [A [B C]]. split; auto. apply fine_mono with (n := k) (ids := id_memo st); auto.
  - intros k K. simpl in K |- *. destruct (memb Nat.eqb i (id_memo st)); auto. apply in_app_iff in K. destruct K as [K|[<-|[]]]; auto.
  - exact H3.
  - simpl. destruct (memb Nat.eqb i (id_memo st)) eqn:E; auto. apply memb_In_false in E; [|apply Nat.eqb_eq].
    apply NoDup_app_intro; [auto|repeat constructor; intros []|]. intros k K [<-|[]]. auto.
  - intros A e M. destruct (H4 A e M) as [D [s [S1 S2]]]. split; auto. exists s. split; auto.
    simpl cells. rewrite <- (app_nil_r (cells st)). apply den_mono with (ids := id_memo st); auto.
  - intros A k K. destruct (H6 A k K) as [c [d [s [D [S1 S2]]]]]. exists c, d, s. split; auto. split; auto.
    simpl cells. rewrite <- (app_nil_r (cells st)). apply den_mono with (ids := id_memo st); auto.
Qed.

Lemma ser_works v : wf_val v -> good_keys v -> (AL -> forall x, occurs x v -> dom x) -> (exists s, serialize v = Ok s) -> works v.
Proof.
  induction v using val_ind'; intros W GK O [s0 S];
    try (simpl in S; match type of S with (if ?b then _ else _) = _ => destruct b eqn:J; [|discriminate] end; injection S as <-;
         intros p st I; cbn [PointersModel.ser]; rewrite J; do 2 eexists; split; [reflexivity|]; split; [apply ext_refl|]; split; [auto|]; split;
         [split; [repeat constructor|intros A y Y; simpl in Y; rewrite J in Y; injection Y as <-; constructor; exact Logic.I]|intros e M; auto]; fail).
  1, 2:
    cbn [SerialModel.serialize] in S; destruct (map_seq serialize l) as [r|] eqn:M; [|discriminate]; apply map_seq_ok in M;
    intros p st I; destruct (elements_works l) with (p := p) (n := 0) (st := st) as [rs [st' [E [X [I' [F N]]]]]]; auto;
    [ intros x Hx; rewrite Forall_forall in H; apply H; auto;
      [ inversion W as [| | | | |? WF|? WF| | |]; subst; rewrite Forall_forall in WF; auto
      | inversion GK as [| | | | |? ? WF|? ? WF| | |]; subst; rewrite Forall_forall in WF; apply WF; assumption
      | intros A y Oy; apply (O A); eapply oc_seq; [reflexivity|eassumption|assumption]
      | destruct (Forall2_in_left _ _ _ _ M Hx) as [y [_ Y]]; eauto ]
    | exists (JList rs), st'; split; [cbn [PointersModel.ser]; rewrite E; reflexivity|]; split; [auto|]; split; [auto|]; split;
      [ split;
        [ constructor; intros j Hj; destruct (Forall2_in_right _ _ _ _ F Hj) as [x [_ [G1 _]]]; exact G1
        | intros A y Y; cbn [SerialModel.serialize] in Y; destruct (map_seq serialize l) as [r'|] eqn:M'; [|discriminate];
          injection Y as <-; apply map_seq_ok in M'; clear -F M' A; constructor;
          [ transitivity (length l); [symmetry|]; eapply Forall2_length; eauto
          | clear -F M' A; revert r' M'; induction F as [|x j l0 rs [_ G2] F IH]; intros r' M'; inversion M' as [|? ? ? ? Y1 Y2]; subst;
            intros [|n] a b Ea Eb; simpl in *; try discriminate;
            [injection Ea as <-; injection Eb as <-; apply G2; auto|eapply IH; eauto] ] ]
      | intros e Me; destruct (N e Me) as [M0|[m [j [q [Q1 [Q2 [Q3 Q4]]]]]]]; auto; right; exists (str_nat (0 + m) :: q);
        split; auto; split; auto; eapply rc_list; eauto ] ].
  - (* dict *)
    cbn [SerialModel.serialize] in S. destruct (map_items serialize (fun _ => true) d) as [r|] eqn:M; [|discriminate]. apply map_items_ok in M.
    assert (FT : filter (fun _ : key * val => true) d = d) by (clear -d; induction d as [|a d IH]; simpl; congruence).
    rewrite FT in M. inversion W as [| | | | | | |? ND WF| |]; subst. inversion GK as [| | | | | | |? GH GF| |]; subst. simpl in GH.
    rewrite Forall_forall in WF, GF, H. intros p st I.
    destruct (dict_works (fun _ => true) d ND) with (p := p) (st := st) as [rs [st' [E [X [I' [NR [KR [GR N]]]]]]]]; auto.
    { intros k x Hx _. split; [|apply GH; eapply in_keys; eauto]. apply (H (k, x) Hx); [apply (WF _ Hx)|apply (GF _ Hx)| |].
      - intros A y Oy. apply (O A). eapply oc_dict; eauto.
      - destruct (Forall2_in_left _ _ _ _ M Hx) as [y [_ [_ Y]]]. eauto. }
    rewrite FT in KR.
    assert (NREF : ~ In RK (map fst rs)).
    { intros B. apply KR in B. apply GH in B. destruct B as [s [B1 [_ B2]]]. congruence. }
    exists (JDict rs), st'. split; [cbn [PointersModel.ser]; rewrite E; reflexivity|]. split; auto. split; auto. split; [split|].
    + constructor; auto. intros k x Hx. destruct (GR k x Hx) as [y [_ [_ [G1 _]]]]. auto.
    + intros A y Y. cbn [SerialModel.serialize] in Y. destruct (map_items serialize (fun _ => true) d) as [r'|] eqn:M'; [|discriminate].
      injection Y as <-. apply map_items_ok in M'. rewrite FT in M'.
      constructor; auto.
      * intros k. rewrite KR. rewrite (Forall2_keys (fun x y => serialize x = Ok y) _ _ M'). tauto.
      * intros k j y Hj Hy. destruct (GR k j Hj) as [x [X1 [_ [_ G2]]]]. apply G2; auto.
        destruct (Forall2_in_right _ _ _ _ M' Hy) as [[k' x'] [X3 [X4 X5]]]. simpl in X4, X5. subst k'.
        rewrite (keys_fun _ _ _ _ ND X1 X3). auto.
    + intros e Me. destruct (N e Me) as [M0|[s [j [q [Q1 [Q2 [Q3 Q4]]]]]]]; auto. right. exists (s :: q).
      split; auto. split; auto. eapply rc_dict; eauto.
  - (* object *)
    intros p st I. pose proof S as S'. apply serialize_obj in S. destruct S as [name [items [LN [M ->]]]].
    inversion W as [| | | | | | | |? ? ND KS WF|]; subst. inversion GK as [| | | | | | | |? ? GH GF|]; subst. simpl in GH.
    destruct GH as [GH [nm GN]]. rewrite (proj1 (In_lookup _ _ _ ND) GN) in LN. injection LN as <-.
    rewrite Forall_forall in WF, GF, H. cbn [PointersModel.ser].
    destruct (List.find (fun e => same (e_key e) (VObj c d)) (memo st)) as [e|] eqn:FE.
    + apply find_some in FE. destruct FE as [Me SE]. pose proof I as I0. destruct I as [I1 [I2 [I3 [I5 [I4 I6]]]]].
      exists (reference (e_id e)), (add_id (e_id e) st). split; auto. split; [apply add_id_ext|]. split; [apply add_id_inv; [auto|exact I0]|].
      split; [split|].
      * eapply fn_ref; [apply add_id_in|apply isref_reference].
      * intros A y Y. destruct (I4 A e Me) as [D [s [S1 S2]]].
        eapply de_ref; [apply add_id_in|apply isref_reference|]. apply den_alike with (s := s).
        -- simpl cells. rewrite <- (app_nil_r (cells st)). apply den_mono with (ids := id_memo st); auto. apply (proj2 (add_id_ext (e_id e) st)).
        -- eapply (AL_ok A); [exact D|apply (O A); constructor|exact SE|exact S1|exact Y].
      * intros e' Me'. left. exact Me'.
    + assert (LN : lookup (KStr "name") d = Some (VStr nm)) by (apply In_lookup; auto).
      unfold base_items. rewrite LN. cbn [of_option bind].
      destruct (dict_works (kept c) d ND) with (p := p) (st := st) as [rs [st1 [E [X [I' [NR [KR [GR N]]]]]]]]; auto.
      { intros k x Hx K. split; [|destruct (GH k (in_keys _ _ _ Hx)) as [s [-> [B _]]]; eauto].
        apply (H (k, x) Hx); [apply (WF _ Hx)|apply (GF _ Hx)| |].
        - intros A y Oy. apply (O A). eapply oc_obj; eauto. apply kept_iff. auto.
        - assert (Hx' : In (k, x) (filter (fun kx => kept c (fst kx)) d)) by (apply filter_In; auto).
          destruct (Forall2_in_left _ _ _ _ M Hx') as [y [_ [_ Y]]]. eauto. }
      rewrite E. cbn [bind snd fst].
      set (base := [(KStr "object_class", JLeaf (VStr c)); (KStr "name", JLeaf (VStr nm))]).
      set (content := update base rs). set (i := length (cells st1)). set (st2 := mkState _ _ _).
      assert (NB : NoDup (map fst base)) by (repeat constructor; simpl; intuition discriminate).
      assert (NC : NoDup (map fst content)) by (apply update_nodup; auto).
      assert (KC : forall k, In k (map fst content) -> k = KStr "object_class" \/ k = KStr "name" \/ In k (map fst d)).
      { intros k K. apply update_keys in K. destruct K as [K|K]; [simpl in K; intuition auto|]. apply KR in K. right. right.
        apply keys_in in K. destruct K as [x K]. apply filter_In in K. eapply in_keys. apply K. }
      assert (NRC : ~ In RK (map fst content)).
      { intros K. apply KC in K. destruct K as [K|[K|K]]; try discriminate. apply GH in K. destruct K as [s [B1 [[_ B2] _]]]. congruence. }
      assert (VC : forall k j, In (k, j) content -> (In (k, j) rs) \/ (~ In k (map fst rs) /\ In (k, j) base)).
      { intros k j K. apply (In_lookup _ _ _ NC) in K. unfold content in K. rewrite update_lookup in K by auto.
        destruct (lookup k rs) as [x|] eqn:L.
        - left. injection K as <-. apply lookup_In. auto.
        - right. apply lookup_None in L. split; auto. apply lookup_In. auto. }
      assert (FC : fine i (id_memo st1) (JDict content)).
      { constructor; auto. intros k j K. destruct (VC k j K) as [B|[_ B]].
        - destruct (GR k j B) as [x [_ [_ [G1 _]]]]. exact G1.
        - simpl in B. destruct B as [B|[B|[]]]; inversion B; subst; constructor; exact Logic.I. }
      assert (X2 : ext st1 st2) by (split; simpl; [eexists; reflexivity|apply incl_refl]).
      assert (NTH : nth i (cells st2) [] = content).
      { simpl. rewrite app_nth2 by (unfold i; lia). unfold i. rewrite Nat.sub_diag. reflexivity. }
      assert (LEN : length (cells st2) = S i) by (simpl; rewrite app_length; simpl; unfold i; lia).
      assert (DV : AL -> forall y, serialize (VObj c d) = Ok y -> den (cells st2) (id_memo st2) (JCell i) y).
      { intros A y Y. rewrite S' in Y. injection Y as <-. apply de_cell; [lia|]. rewrite NTH.
        pose proof (items_nodup non_serializable jsonable annotation_of_class c d items ND M) as NI.
        pose proof (Forall2_keys (fun x y => serialize x = Ok y) _ _ M) as KI.
        constructor; auto.
        - intros k. unfold content. rewrite !update_keys, KR, KI. unfold base. simpl. tauto.
        - intros k j y K Ky. apply (In_lookup _ _ _ (update_nodup _ _ (NB : NoDup (map fst [(KStr "object_class", VStr c); (KStr "name", VStr nm)])))) in Ky.
          rewrite update_lookup in Ky by auto. destruct (VC k j K) as [B|[B1 B2]].
          + destruct (GR k j B) as [x [X3 [X4 [_ G2]]]].
            assert (Hx : In (k, x) (filter (fun kx => kept c (fst kx)) d)) by (apply filter_In; auto).
            destruct (Forall2_in_left _ _ _ _ M Hx) as [[k' y'] [Y1 [Y2 Y3]]]. simpl in Y2, Y3. subst k'.
            apply (In_lookup _ _ _ NI) in Y1. rewrite Y1 in Ky. injection Ky as <-.
            destruct X2 as [[l2 L2] J2]. rewrite L2. apply den_mono with (ids := id_memo st1); auto.
          + assert (NI' : ~ In k (map fst items)) by (rewrite KI, <- KR; auto). apply lookup_None in NI'. rewrite NI' in Ky.
            simpl in B2. destruct B2 as [B2|[B2|[]]]; inversion B2; subst; simpl in Ky; injection Ky as <-; constructor; exact Logic.I. }
      assert (I2 : Inv st2).
      { destruct I' as [I1 [I2 [I3 [I5 [I4 I6]]]]]. split; [|split; [|split; [|split; [exact I5|split]]]].
        - intros k K. rewrite LEN in K. destruct (Nat.eq_dec k i) as [->|D].
          + rewrite NTH. auto.
          + simpl. rewrite app_nth1 by (unfold i in *; lia). apply I1. unfold i in *; lia.
        - intros k K. rewrite LEN. apply I2 in K. unfold i. lia.
        - intros e K. rewrite LEN. simpl in K. apply set_memo_in in K. destruct K as [K|[K _]]; [apply I3 in K; unfold i; lia|lia].
        - intros A e K. simpl in K. apply set_memo_in in K. destruct K as [K|[K1 [K2 K3]]].
          + destruct (I4 A e K) as [D [s [S1 S2]]]. split; auto. exists s. split; auto. simpl. apply den_mono with (ids := id_memo st1); auto using incl_refl.
          + rewrite K1. destruct K3 as [K3|[e' [K3 [K4 K5]]]].
            * rewrite K3. split; [apply (O A); constructor|]. eexists. split; [exact S'|]. apply DV; auto.
            * rewrite K4. destruct (I4 A e' K3) as [D [s [S1 S2]]]. split; auto. exists s. split; auto.
              apply den_alike with (s := VDict (update [(KStr "object_class", VStr c); (KStr "name", VStr nm)] items)); [apply (DV A); auto|].
              apply alike_sym. eapply (AL_ok A); [exact D|apply (O A); constructor|exact K5|exact S1|exact S'].
        - intros A k K. rewrite LEN in K. destruct (Nat.eq_dec k i) as [->|NE].
          + exists c, d. eexists. split; [apply (O A); constructor|]. split; [exact S'|apply (DV A); auto].
          + destruct (I6 A k) as [c' [d' [s [D [S1 S2]]]]]; [unfold i in *; lia|]. exists c', d', s. split; auto. split; auto.
            simpl. apply den_mono with (ids := id_memo st1); auto using incl_refl. }
      assert (NP : forall e, In e (memo st2) -> In e (memo st) \/ exists q, e_path e = p ++ q /\ Forall good_name q /\ reach (cells st2) (id_memo st2) (JCell i) q (e_id e)).
      { intros e K. simpl in K. apply set_memo_in in K. destruct K as [K|[K1 [K2 _]]].
        - destruct (N e K) as [M0|[s [j [q [Q1 [Q2 [Q3 Q4]]]]]]]; auto. right. exists (s :: q). split; auto. split; auto.
          apply rc_in; [lia|]. rewrite NTH. eapply rc_dict with (x := j); auto.
          + apply In_lookup; auto. unfold content. rewrite update_lookup by auto. apply (In_lookup _ _ _ NR) in Q1. rewrite Q1. auto.
          + eapply reach_ext; eauto.
        - right. exists []. rewrite app_nil_r. split; auto. split; auto. rewrite K1. constructor. }
      assert (X3 : ext st st2) by (eapply ext_trans; eauto).
      destruct (standalone c).
      * exists (reference i), (add_id i st2). split; auto. split; [eapply ext_trans; [exact X3|apply add_id_ext]|].
        split; [apply add_id_inv; auto; lia|]. split; [split|].
        -- eapply fn_ref; [apply add_id_in|apply isref_reference].
        -- intros A y Y. eapply de_ref; [apply add_id_in|apply isref_reference|]. change (cells (add_id i st2)) with (cells st2).
           rewrite <- (app_nil_r (cells st2)). apply den_mono with (ids := id_memo st2); [apply (add_id_ext i st2)|]. apply (DV A); auto.
        -- intros e K. destruct (NP e K) as [K0|[q [Q1 [Q2 Q3]]]]; auto. right. exists q. split; auto. split; auto.
           apply reach_ext with (st' := add_id i st2) in Q3; [|apply add_id_ext].
           eapply reach_cell_ref; [apply add_id_in|apply isref_reference|auto].
      * exists (JCell i), st2. split; auto. split; auto. split; auto. split; [split; [constructor; lia|exact DV]|exact NP].
  - injection S as <-. intros p st I. do 2 eexists. split; [reflexivity|]. split; [apply ext_refl|]. split; auto. split; [|intros e M; auto].
    split; [repeat constructor|]. intros A y Y. injection Y as <-. constructor. exact Logic.I.
Qed.
End B.

(** ** Rewriting *)
Section R.
Variable str_nat : nat -> string.
Variable id_name : nat -> string.
Variable int_of : string -> option Z.
Variable isdigit : string -> bool.
Hypothesis int_str_nat : forall n, int_of (str_nat n) = Some (Z.of_nat n).
Hypothesis id_name_good : forall i, good_name (id_name i).
Hypothesis id_name_inj : forall i j, id_name i = id_name j -> i = j.
Notation isref := (isref id_name).
Notation fine := (fine id_name).
Notation den := (den id_name).
Notation reach := (reach id_name str_nat).
Notation reference := (reference id_name).
Notation path_to_refs := (path_to_refs id_name).
Notation jfind := (jfind int_of isdigit).
Notation jget := (jget int_of isdigit).
Notation jwrite := (jwrite int_of).
Notation jset := (jset int_of isdigit).

Lemma path_to_refs_inj i j : path_to_refs i = path_to_refs j -> i = j.
Proof. unfold PointersModel.path_to_refs, path_string. simpl. unfold slash. simpl. intros H. injection H as H. auto. Qed.

Inductive sim (ids : list nat) : jval -> jval -> Prop :=
| si_refl j : sim ids j j
| si_list l l' : length l = length l' ->
    (forall n x y, nth_error l n = Some x -> nth_error l' n = Some y -> sim ids x y) -> sim ids (JList l) (JList l')
| si_dict d d' : ~ In RK (map fst d) -> map fst d = map fst d' ->
    (forall k x y, In (k, x) d -> In (k, y) d' -> sim ids x y) -> sim ids (JDict d) (JDict d')
| si_cell i j : In i ids -> isref ids i j -> sim ids (JCell i) j
| si_ref i j j' : In i ids -> isref ids i j -> isref ids i j' -> sim ids j j'.

Lemma isref_fun ids i i' j : isref ids i j -> isref ids i' j -> i = i'.
Proof.
  intros [d [-> [_ [L _]]]] [d' [E [_ [L' _]]]]. injection E as <-. rewrite L in L'. injection L' as L'. apply path_to_refs_inj. auto.
Qed.
Lemma isref_key ids i d : isref ids i (JDict d) -> In RK (map fst d).
Proof. intros [d' [E [_ [L _]]]]. injection E as <-. apply lookup_In in L. eapply in_keys; eauto. Qed.
Lemma isref_dict ids i j : isref ids i j -> exists d, j = JDict d.
Proof. intros [d [E _]]. eauto. Qed.
Lemma sim_isref ids i j j' : isref ids i j -> sim ids j j' -> isref ids i j'.
Proof.
  intros R S. inversion S as [j0|l l' E F|d d' NR E F|i0 j0 I R0|i0 j0 j1 I R0 R1]; subst; auto.
  - apply isref_dict in R. destruct R as [? ?]; discriminate.
  - apply isref_key in R. contradiction.
  - apply isref_dict in R. destruct R as [? ?]; discriminate.
  - rewrite (isref_fun _ _ _ _ R R0). auto.
Qed.

Lemma sim_keys ids d d' : ~ In RK (map fst d) -> sim ids (JDict d) (JDict d') -> map fst d = map fst d'.
Proof.
  intros NR S. remember (JDict d) as j. remember (JDict d') as j'.
  destruct S as [j0|l0 l' E0 F0|d0 d1 NR0 E0 F0|i0 j0 I0 R0|i0 j0 j1 I0 R0 R1]; try congruence.
  subst. apply isref_key in R0. contradiction.
Qed.
Lemma sim_values ids d d' k x y : NoDup (map fst d) -> ~ In RK (map fst d) -> sim ids (JDict d) (JDict d') ->
  In (k, x) d -> In (k, y) d' -> sim ids x y.
Proof.
  intros N NR S X Y. remember (JDict d) as j. remember (JDict d') as j'.
  destruct S as [j0|l0 l' E0 F0|d0 d1 NR0 E0 F0|i0 j0 I0 R0|i0 j0 j1 I0 R0 R1]; try congruence.
  - assert (d = d') by congruence. subst d'. rewrite (keys_fun _ _ _ _ N X Y). constructor.
  - injection Heqj as ->. injection Heqj' as ->. eauto.
  - subst. apply isref_key in R0. contradiction.
Qed.

Definition csim (ids : list nat) (cs cs' : list (list (key * jval))) : Prop :=
  length cs = length cs' /\ forall i, i < length cs -> sim ids (JDict (nth i cs [])) (JDict (nth i cs' [])).

Lemma fine_sim n ids j : fine n ids j -> forall j', sim ids j j' -> fine n ids j'.
Proof.
  induction 1 as [v L|l F IH|d N NR F IH|i L|i j I R]; intros j' S;
    inversion S as [j0|l0 l' E F0|d0 d' NR0 E F0|i0 j0 I0 R0|i0 j0 j1 I0 R0 R1]; subst;
    try (constructor; auto; fail); try (apply isref_dict in R0; destruct R0; discriminate).
  - constructor. intros y Y. apply In_nth_error in Y. destruct Y as [m Y].
    destruct (nth_error l m) as [x|] eqn:X.
    + eapply IH; [eapply nth_error_In; eauto|]. eauto.
    + apply nth_error_None in X. assert (nth_error l' m <> None) by congruence. apply nth_error_Some in H. lia.
  - constructor; try (rewrite <- E; auto; fail). intros k y Y. destruct (keys_in k d) as [x X]; [rewrite E; eapply in_keys; eauto|]. eauto.
  - eapply fn_ref; eauto.
  - eapply fn_ref; eauto.
  - eapply fn_ref; eauto.
  - apply isref_dict in R. destruct R; discriminate.
  - apply isref_key in R. contradiction.
  - apply isref_dict in R. destruct R; discriminate.
  - eapply fn_ref; eauto.
Qed.
Lemma den_sim ids cs cs' j s : csim ids cs cs' -> den cs ids j s -> forall j', sim ids j j' -> den cs' ids j' s.
Proof.
  intros [CL CS]. induction 1 as [v L|l m E F IH|d e N NR K F IH|i s L D IH|i j s I R D IH]; intros j' S.
  5: { eapply de_ref; [exact I|eapply sim_isref; eauto|]. apply IH. constructor. }
  all: inversion S as [j0|l0 l' E0 F0|d0 d' NR0 E0 F0|i0 j0 I0 R0|i0 j0 j1 I0 R0 R1]; subst;
    try (apply isref_dict in R0; destruct R0; discriminate).
  - constructor; auto.
  - constructor; auto. intros n x y X Y. eapply IH; eauto. constructor.
  - constructor; [congruence|]. intros n x y X Y. destruct (nth_error l n) as [z|] eqn:Z.
    + eauto.
    + apply nth_error_None in Z. assert (nth_error l' n <> None) by congruence. apply nth_error_Some in H. lia.
  - constructor; auto. intros k x y X Y. eapply IH; eauto. constructor.
  - constructor; try (rewrite <- E0; auto; fail). intros k x y X Y. destruct (keys_in k d) as [z Z]; [rewrite E0; eapply in_keys; eauto|]. eauto.
  - apply isref_key in R0. contradiction.
  - apply de_cell; [lia|]. auto.
  - eapply de_ref; eauto. apply de_cell; [lia|]. auto.
Qed.
Lemma reach_sim ids cs cs' j q m : csim ids cs cs' -> reach cs ids j q m -> forall j', sim ids j j' -> reach cs' ids j' q m.
Proof.
  intros [CL CS]. induction 1 as [i|i j I R|l n x q i X H IH|d s x q i N NR X H IH|i s q m L H IH|i j s q m I R H IH]; intros j' S.
  - inversion S as [j0|l0 l' E0 F0|d0 d' NR0 E0 F0|i0 j0 I0 R0|i0 j0 j1 I0 R0 R1]; subst; try (apply isref_dict in R0; destruct R0; discriminate).
    + constructor.
    + eapply rc_ref; eauto.
  - eapply rc_ref; [exact I|eapply sim_isref; eauto].
  - inversion S as [j0|l0 l' E0 F0|d0 d' NR0 E0 F0|i0 j0 I0 R0|i0 j0 j1 I0 R0 R1]; subst; try (apply isref_dict in R0; destruct R0; discriminate).
    + eapply rc_list; eauto. apply IH. constructor.
    + destruct (nth_error l' n) as [y|] eqn:Y.
      * eapply rc_list; eauto.
      * apply nth_error_None in Y. assert (nth_error l n <> None) by congruence. apply nth_error_Some in H0. lia.
  - inversion S as [j0|l0 l' E0 F0|d0 d' NR0 E0 F0|i0 j0 I0 R0|i0 j0 j1 I0 R0 R1]; subst.
    + eapply rc_dict; eauto. apply IH. constructor.
    + destruct (keys_in (KStr s) d') as [y Y]; [rewrite <- E0; eapply in_keys; eauto|].
      eapply rc_dict; [rewrite <- E0; auto|rewrite <- E0; auto|exact Y|]. eauto.
    + apply isref_key in R0. contradiction.
  - inversion S as [j0|l0 l' E0 F0|d0 d' NR0 E0 F0|i0 j0 I0 R0|i0 j0 j1 I0 R0 R1]; subst; try (apply isref_dict in R0; destruct R0; discriminate).
    + apply rc_in; [lia|]. auto.
    + eapply rc_thru; eauto. apply rc_in; [lia|]. auto.
  - eapply rc_thru; [exact I|eapply sim_isref; eauto|]. apply IH. constructor.
Qed.

(** ** Places *)
Inductive located : jval -> list step -> jval -> Prop :=
| lo_here j : located j [] j
| lo_list l i x loc w : nth_error l i = Some x -> located x loc w -> located (JList l) (Idx i :: loc) w
| lo_dict d k x loc w : NoDup (map fst d) -> ~ In RK (map fst d) -> In (k, x) d -> located x loc w -> located (JDict d) (Item k :: loc) w.

Lemma located_app c loc j : located c loc j -> forall loc' w, located j loc' w -> located c (loc ++ loc') w.
Proof. induction 1; intros; simpl; auto; econstructor; eauto. Qed.

Lemma set_key_same {A} k (x : A) d : In k (map fst d) -> map fst (set_key k x d) = map fst d.
Proof. intros H. rewrite set_key_keys. apply has_key_In in H. rewrite H. auto. Qed.
Lemma set_key_in {A} k (x : A) d k' y : NoDup (map fst d) -> In (k', y) (set_key k x d) -> (k' = k /\ y = x) \/ (k' <> k /\ In (k', y) d).
Proof.
  intros N H. apply (In_lookup _ _ _ (nodup_set k x d N)) in H. destruct (key_dec k' k) as [->|D].
  - rewrite lookup_set_same in H. injection H as <-. auto.
  - rewrite lookup_set_other in H by auto. right. split; auto. apply lookup_In. auto.
Qed.
Lemma set_key_sim ids k x x' d : NoDup (map fst d) -> ~ In RK (map fst d) -> In (k, x) d -> sim ids x x' ->
  sim ids (JDict d) (JDict (set_key k x' d)).
Proof.
  intros N NR I S. apply si_dict; auto.
  - symmetry. apply set_key_same. eapply in_keys; eauto.
  - intros k' y z Y Z. apply set_key_in in Z; auto. destruct Z as [[-> ->]|[D Z]].
    + rewrite (keys_fun _ _ _ _ N Y I). auto.
    + rewrite (keys_fun _ _ _ _ N Y Z). constructor.
Qed.
Lemma update_nth_sim ids i x x' l : nth_error l i = Some x -> sim ids x x' -> sim ids (JList l) (JList (update_nth i x' l)).
Proof.
  intros X S. apply si_list; [rewrite update_length; auto|]. intros n y z Y Z. destruct (Nat.eq_dec i n) as [->|D].
  - assert (n < length l) by (apply nth_error_Some; congruence). rewrite update_same in Z by auto. congruence.
  - rewrite update_other in Z by auto. rewrite Y in Z. injection Z as <-. constructor.
Qed.
Lemma put_sim ids c loc j : located c loc j -> forall j', sim ids j j' -> sim ids c (jput_at c loc j').
Proof.
  induction 1 as [j|l i x loc w X L IH|d k x loc w N NR X L IH]; intros j' S; simpl; auto.
  - rewrite X. simpl. eapply update_nth_sim; eauto.
  - rewrite (proj1 (In_lookup _ _ _ N) X). simpl. eapply set_key_sim; eauto.
Qed.

(** ** The heap *)
Definition refs_of (ids : list nat) : jval := JDict (map (fun i => (KStr (id_name i), JCell i)) ids).
Notation REFS := (KStr "_references").

Definition shape (ids : list nat) (R : list (key * jval)) (cs : list (list (key * jval))) : Prop :=
  NoDup (map fst R) /\ ~ In RK (map fst R) /\ In (REFS, refs_of ids) R
  /\ (forall i, In i ids -> i < length cs)
  /\ (forall i, i < length cs -> fine i ids (JDict (nth i cs [])) /\ ~ In RK (map fst (nth i cs [])) /\ NoDup (map fst (nth i cs [])))
  /\ (forall k x, In (k, x) R -> k <> REFS -> fine (length cs) ids x).

(** the root and the dictionaries of objects, before and after *)
Definition hsim (ids : list nat) (R : list (key * jval)) cs (R' : list (key * jval)) cs' : Prop :=
  map fst R = map fst R' /\ (forall k x y, In (k, x) R -> In (k, y) R' -> sim ids x y /\ (k = REFS -> x = y)) /\ csim ids cs cs'.

Lemma shape_sim ids R cs R' cs' : shape ids R cs -> hsim ids R cs R' cs' -> shape ids R' cs'.
Proof.
  intros [N [NR [RF [L [C F]]]]] [K [S [CL CS]]]. unfold shape. rewrite <- K, <- CL. repeat split; auto.
  - destruct (keys_in REFS R') as [y Y]; [rewrite <- K; eapply in_keys; eauto|]. destruct (S _ _ _ RF Y) as [_ E]. rewrite E; auto.
  - eapply fine_sim; [apply C; auto|auto].
  - destruct (C i H) as [C1 [C2 C3]]. specialize (CS i H). rewrite <- (sim_keys _ _ _ C2 CS). auto.
  - destruct (C i H) as [C1 [C2 C3]]. specialize (CS i H). rewrite <- (sim_keys _ _ _ C2 CS). auto.
  - intros k y Y D. destruct (keys_in k R) as [x X]; [rewrite K; eapply in_keys; eauto|].
    eapply fine_sim; [eapply F; eauto|]. apply (S _ _ _ X Y).
Qed.

Section Heap.
Variable ids : list nat.
Variable R : list (key * jval).
Variable cs : list (list (key * jval)).
Hypothesis SH : shape ids R cs.
Let h : heap := (JDict R, cs).

Definition jstep (n : nat) (p : place) (s : string) : res place :=
  let p1 := enter h p in
  let* p2 := match snd p1 with
             | JDict d => match lookup RK d with
                          | None => Ok p1
                          | Some (JLeaf (VStr t)) => let* q := jget n h (segments t) in Ok (enter h q)
                          | Some _ => Err AttributeError
                          end
             | _ => Ok p1
             end in
  let* sw := jfind (snd p2) s in
  Ok (fst (fst p2), snd (fst p2) ++ [fst sw], snd sw).
Lemma jget_fold n segs : jget (S n) h segs = foldM (jstep n) segs (Root, [], JDict R).
Proof. reflexivity. Qed.

Lemma jfind_key d s x : NoDup (map fst d) -> In (KStr s, x) d -> jfind (JDict d) s = Ok (Item (KStr s), x).
Proof. intros N H. simpl. rewrite (proj1 (In_lookup _ _ _ N) H). auto. Qed.
Lemma jfind_nth l n x : nth_error l n = Some x -> jfind (JList l) (str_nat n) = Ok (Idx n, x).
Proof.
  intros H. simpl. rewrite int_str_nat. assert (L : n < length l) by (apply nth_error_Some; congruence).
  assert (E : py_index (length l) (Z.of_nat n) = Some n) by (apply py_index_iff; auto). rewrite E, H. auto.
Qed.

Lemma refs_nodup l : NoDup l -> NoDup (map fst (map (fun i => (KStr (id_name i), JCell i)) l)).
Proof.
  intros N. rewrite map_map. simpl. induction N as [|i l N1 N2 IH]; simpl; constructor; auto.
  intros I. apply in_map_iff in I. destruct I as [m [E I]]. injection E as E. apply id_name_inj in E. subst. auto.
Qed.
Lemma refs_lookup l i : In i l -> lookup (KStr (id_name i)) (map (fun i => (KStr (id_name i), JCell i)) l) = Some (JCell i).
Proof.
  induction l as [|m l IH]; simpl; [tauto|]. intros I. destruct (String.eqb (id_name i) (id_name m)) eqn:E.
  - apply String.eqb_eq in E. apply id_name_inj in E. subst. auto.
  - destruct I as [->|I]; auto. rewrite String.eqb_refl in E. discriminate.
Qed.
Lemma refs_no_ref l : lookup RK (map (fun i => (KStr (id_name i), JCell i)) l) = None.
Proof.
  apply lookup_None. rewrite map_map. simpl. intros H. apply in_map_iff in H. destruct H as [m [E _]].
  injection E as E. destruct (id_name_good m). contradiction.
Qed.

Lemma deref n i : In i ids -> jget (S n) h (segments (path_to_refs i)) = Ok (Root, [Item REFS; Item (KStr (id_name i))], JCell i).
Proof.
  intros I. destruct SH as [N [NR [RF _]]].
  assert (E : segments (path_to_refs i) = ["_references"; id_name i]).
  { change (path_to_refs i) with (path_of ["_references"; id_name i]). apply segments_path. split.
    - constructor; [|constructor; [apply id_name_good|constructor]]. unfold no_slash. simpl. intuition discriminate.
    - exists "_"%char, "references", [id_name i]. repeat split; discriminate. }
  rewrite E, jget_fold. cbn [foldM].
  assert (J1 : jstep n (Root, [], JDict R) "_references" = Ok (Root, [Item REFS], refs_of ids)).
  { unfold jstep. cbv zeta. cbn [enter snd]. apply lookup_None in NR. rewrite NR. cbn [bind snd].
    rewrite (jfind_key R "_references" _ N RF). reflexivity. }
  rewrite J1. cbn [bind].
  assert (J2 : jstep n (Root, [Item REFS], refs_of ids) (id_name i) = Ok (Root, [Item REFS; Item (KStr (id_name i))], JCell i)).
  { unfold jstep, refs_of. cbv zeta. cbn [enter snd]. rewrite refs_no_ref. cbn [bind snd fst]. cbn [PointersModel.jfind].
    rewrite refs_lookup by auto. reflexivity. }
  rewrite J2. reflexivity.
Qed.

Definition valid (p : place) : Prop :=
  located (content h (fst (fst p))) (snd (fst p)) (snd p)
  /\ match fst (fst p) with
     | Root => snd (fst p) = [] \/ exists k rest, snd (fst p) = Item k :: rest /\ k <> REFS
     | Cell m => m < length cs
     end.
Lemma valid_cell m : m < length cs -> valid (Cell m, [], JDict (nth m cs [])).
Proof. intros L. split; simpl; auto. constructor. Qed.
Definition safe (p : place) (s : string) : Prop := fst (fst p) = Root -> snd (fst p) = [] -> s <> "_references".
Lemma valid_down p st x s : valid p -> located (snd p) [st] x -> safe p s -> (forall k, st = Item k -> k = KStr s) ->
  valid (fst (fst p), snd (fst p) ++ [st], x).
Proof.
  intros [V1 V2] L SF IT. split; simpl.
  - eapply located_app; eauto.
  - destruct p as [[o loc] j]. simpl in *. destruct o; auto. right. destruct V2 as [->|[k [rest [-> D]]]].
    + simpl in *. inversion V1; subst. inversion L; subst. exists k, []. split; auto.
      rewrite (IT k eq_refl). specialize (SF eq_refl eq_refl). congruence.
    + exists k, (rest ++ [st]). auto.
Qed.

Lemma reach_plain d s q i : ~ In RK (map fst d) -> reach cs ids (JDict d) (s :: q) i -> NoDup (map fst d) /\ exists x, In (KStr s, x) d /\ reach cs ids x q i.
Proof.
  intros NR H. inversion H as [|i0 j0 I0 R0| |d0 s0 x q0 i0 N NR0 X H0|i0 s0 q0 m0 L H0|i0 j0 s0 q0 m0 I0 R0]; subst.
  - split; eauto.
  - apply isref_key in R0. contradiction.
Qed.
Lemma reach_cell m s q i : reach cs ids (JCell m) (s :: q) i -> m < length cs /\ reach cs ids (JDict (nth m cs [])) (s :: q) i.
Proof.
  intros H. inversion H as [|i0 j0 I0 R0| |d0 s0 x q0 i0 N NR0 X H0|i0 s0 q0 m0 L H0|i0 j0 s0 q0 m0 I0 R0]; subst; auto.
  apply isref_dict in R0. destruct R0; discriminate.
Qed.
Lemma enter_ok p s q i : valid p -> reach cs ids (snd p) (s :: q) i -> safe p s ->
  valid (enter h p) /\ reach cs ids (snd (enter h p)) (s :: q) i /\ safe (enter h p) s /\ forall m, snd (enter h p) <> JCell m.
Proof.
  intros V H SF. unfold enter. destruct (snd p) eqn:E.
  - rewrite E. repeat split; try apply V; auto; discriminate.
  - rewrite E. repeat split; try apply V; auto; discriminate.
  - rewrite E. repeat split; try apply V; auto; discriminate.
  - apply reach_cell in H. destruct H as [L H]. split; [apply valid_cell; auto|]. split; auto. split; [intros X; discriminate|discriminate].
Qed.
Lemma find_ok p s q i : valid p -> reach cs ids (snd p) (s :: q) i -> safe p s ->
  (forall m, snd p <> JCell m) -> (forall d, snd p = JDict d -> ~ In RK (map fst d)) ->
  exists st x, jfind (snd p) s = Ok (st, x) /\ valid (fst (fst p), snd (fst p) ++ [st], x) /\ reach cs ids x q i.
Proof.
  intros V H SF NC NR. destruct p as [[o loc] j]. cbn [snd fst] in *.
  inversion H as [|i0 j0 I0 R0|l n x q0 i0 X H0|d0 s0 x q0 i0 N NR0 X H0|i0 s0 q0 m0 L H0|i0 j0 s0 q0 m0 I0 R0]; subst.
  - exists (Idx n), x. split; [apply jfind_nth; auto|]. split; auto. apply (valid_down (o, loc, JList l) (Idx n) x (str_nat n)); auto.
    + eapply lo_list; eauto. constructor.
    + discriminate.
  - exists (Item (KStr s)), x. split; [apply jfind_key; auto|]. split; auto. apply (valid_down (o, loc, JDict d0) (Item (KStr s)) x s); auto.
    + eapply lo_dict; eauto. constructor.
    + intros k K. congruence.
  - exfalso. apply (NC i0). auto.
  - exfalso. pose proof R0 as R1. apply isref_dict in R0. destruct R0 as [d D]. subst j. apply isref_key in R1. apply (NR d); auto.
Qed.
Lemma cell_plain m : m < length cs -> forall d, JDict (nth m cs []) = JDict d -> ~ In RK (map fst d).
Proof. intros L d E. injection E as <-. destruct SH as [_ [_ [_ [_ [C _]]]]]. apply C. auto. Qed.

Lemma step_ok n p s q i : valid p -> reach cs ids (snd p) (s :: q) i -> safe p s ->
  exists p', jstep (S n) p s = Ok p' /\ valid p' /\ (forall t, safe p' t) /\ reach cs ids (snd p') q i.
Proof.
  intros V H SF. unfold jstep. destruct (enter_ok p s q i V H SF) as [V1 [H1 [SF1 NC]]]. cbv zeta. set (p1 := enter h p) in *.
  assert (FIN : forall p2, valid p2 -> reach cs ids (snd p2) (s :: q) i -> safe p2 s -> (forall m, snd p2 <> JCell m) -> (forall d, snd p2 = JDict d -> ~ In RK (map fst d)) ->
    exists p', (let* sw := jfind (snd p2) s in Ok (fst (fst p2), snd (fst p2) ++ [fst sw], snd sw)) = Ok p' /\ valid p' /\ (forall t, safe p' t) /\ reach cs ids (snd p') q i).
  { intros p2 V2 H2 SF2 NC2 NR2. destruct (find_ok p2 s q i V2 H2 SF2 NC2 NR2) as [st [x [F1 [F2 F3]]]]. rewrite F1. cbn [bind fst snd].
    eexists. split; [reflexivity|]. split; auto. split; auto. intros t _ E. simpl in E. apply app_eq_nil in E. destruct E; discriminate. }
  destruct (snd p1) as [v|l|d|m] eqn:E.
  - inversion H1; subst. match goal with K : isref _ _ _ |- _ => apply isref_dict in K; destruct K; discriminate end.
  - cbn [bind]. apply FIN; try rewrite E; auto. discriminate.
  - destruct (lookup RK d) as [x|] eqn:L.
    + assert (IR : exists m, In m ids /\ isref ids m (JDict d) /\ reach cs ids (JCell m) (s :: q) i).
      { inversion H1 as [|i0 j0 I0 R0|l n0 x0 q0 i0 X H0|d0 s0 x0 q0 i0 N NR0 X H0|i0 s0 q0 m0 L0 H0|i0 j0 s0 q0 m0 I0 R0]; subst; eauto.
        exfalso. apply NR0. apply lookup_In in L. eapply in_keys; eauto. }
      destruct IR as [m [M1 [M2 M3]]]. destruct M2 as [d' [E' [_ [L' _]]]]. injection E' as <-. rewrite L in L'. injection L' as ->.
      rewrite deref by auto. cbn [bind]. unfold enter. cbn [snd]. apply reach_cell in M3. destruct M3 as [ML M3].
      refine (FIN (Cell m, [], JDict (nth m cs [])) (valid_cell m ML) M3 _ _ (cell_plain m ML)); [intros X; discriminate|discriminate].
    + cbn [bind]. apply FIN; try rewrite E; auto. intros d0 D. injection D as <-. apply lookup_None. auto.
  - exfalso. apply (NC m). auto.
Qed.

Lemma walk_ok n init : forall p q i, valid p -> reach cs ids (snd p) (init ++ q) i -> (forall s, hd_error (init ++ q) = Some s -> safe p s) ->
  exists p', foldM (jstep (S n)) init p = Ok p' /\ valid p' /\ reach cs ids (snd p') q i /\ (forall s, hd_error q = Some s -> safe p' s).
Proof.
  induction init as [|s init IH]; intros p q i V H SF; simpl.
  - exists p. auto.
  - simpl in H, SF. destruct (step_ok n p s (init ++ q) i V H (SF s eq_refl)) as [p' [E [V' [SF' H']]]]. rewrite E. cbn [bind].
    apply IH with (i := i); auto.
Qed.

Lemma write_ok (p : place) s i : In i ids -> s <> "$ref" -> reach cs ids (snd p) [s] i -> (forall m, snd p <> JCell m) ->
  exists w, jwrite (snd p) s (reference i) = Ok w /\ sim ids (snd p) w
    /\ (forall d, snd p = JDict d -> w = JDict (set_key (KStr s) (reference i) d)).
Proof.
  intros I NR H NC. destruct p as [[o loc] j]. cbn [snd fst] in *.
  assert (HS : forall x, reach cs ids x [] i -> sim ids x (reference i)).
  { intros x X. inversion X; subst; [eapply si_cell|eapply si_ref]; eauto using isref_reference. }
  inversion H as [|i0 j0 I0 R0|l n x q0 i0 X H0|d0 s0 x q0 i0 N NR0 X H0|i0 s0 q0 m0 L H0|i0 j0 s0 q0 m0 I0 R0]; subst.
  - simpl. rewrite int_str_nat. assert (L : n < length l) by (apply nth_error_Some; congruence).
    assert (E : py_index (length l) (Z.of_nat n) = Some n) by (apply py_index_iff; auto). rewrite E. eexists. split; [reflexivity|].
    split; [eapply update_nth_sim; eauto|discriminate].
  - simpl. eexists. split; [reflexivity|]. split; [eapply set_key_sim; eauto|]. intros d D. congruence.
  - exfalso. apply (NC i0). auto.
  - destruct R0 as [d [D [N [L O]]]]. subst j. simpl. eexists. split; [reflexivity|]. split; [|intros; congruence].
    assert (IR : isref ids i0 (JDict d)) by (exists d; auto).
    eapply si_ref; eauto. exists (set_key (KStr s) (reference i) d). split; auto. split; [apply nodup_set; auto|]. split.
    + rewrite lookup_set_other; auto. congruence.
    + intros k y Y. apply set_key_in in Y; auto. destruct Y as [[-> ->]|[_ Y]]; eauto.
Qed.

Lemma store_ok p w s : valid p -> sim ids (snd p) w -> safe p s ->
  (forall d, snd p = JDict d -> exists x, w = JDict (set_key (KStr s) x d)) ->
  exists R' cs', store h (fst (fst p)) (jput_at (content h (fst (fst p))) (snd (fst p)) w) = (JDict R', cs') /\ hsim ids R cs R' cs'.
Proof.
  intros [V1 V2] S SF WD. destruct p as [[o loc] j]. simpl in *. destruct SH as [N [NR [RF _]]].
  assert (CR : csim ids cs cs) by (split; auto; intros; constructor).
  destruct o as [|m]; simpl in *.
  - destruct V2 as [->|[k [rest [-> D]]]].
    + inversion V1; subst. simpl. destruct (WD R eq_refl) as [x ->]. exists (set_key (KStr s) x R), cs. split; auto.
      assert (NS : KStr s <> REFS) by (specialize (SF eq_refl eq_refl); congruence).
      assert (KS : map fst R = map fst (set_key (KStr s) x R)).
      { apply (sim_keys ids); auto. }
      split; auto. split; auto. intros k y z Y Z. split.
      * eapply (sim_values ids R); eauto.
      * intros ->. apply set_key_in in Z; auto. destruct Z as [[Z _]|[_ Z]]; [congruence|]. eapply keys_fun; eauto.
    + inversion V1 as [| |d0 k0 x loc0 w0 N0 NR0 X L]; subst. simpl. rewrite (proj1 (In_lookup _ _ _ N) X). simpl.
      exists (set_key k (jput_at x rest w) R), cs. split; auto. split; [symmetry; apply set_key_same; eapply in_keys; eauto|]. split; auto.
      intros k' y z Y Z. apply set_key_in in Z; auto. destruct Z as [[-> ->]|[_ Z]].
      * split; [|intros; contradiction]. rewrite (keys_fun _ _ _ _ N Y X). eapply put_sim; eauto.
      * rewrite (keys_fun _ _ _ _ N Y Z). split; auto. constructor.
  - pose proof (put_sim ids _ _ _ V1 w S) as PS.
    destruct (jput_at (JDict (nth m cs [])) loc w) as [v|l|d|i] eqn:E;
      try (inversion PS; subst; try (match goal with K : isref _ _ (JDict _) |- _ => apply isref_key in K; apply (cell_plain m V2 _ eq_refl) in K; contradiction end); fail).
    exists R, (update_nth m d cs). split; auto. split; auto. split.
    + intros k x y X Y. rewrite (keys_fun _ _ _ _ N X Y). split; auto. constructor.
    + split; [rewrite update_length; auto|]. intros i L. destruct (Nat.eq_dec m i) as [->|D].
      * rewrite (nth_error_nth (update_nth i d cs) i [] (update_same i d cs L)). auto.
      * assert (E1 : nth i (update_nth m d cs) [] = nth i cs []).
        { destruct (nth_error cs i) as [a|] eqn:A.
          - rewrite (nth_error_nth _ _ _ A). apply nth_error_nth. rewrite update_other by auto. auto.
          - apply nth_error_None in A. lia. }
        rewrite E1. constructor.
Qed.

Lemma jset_ok n s q i x : In i ids -> In (KStr s, x) R -> s <> "_references" -> good_segments (s :: q) -> Forall good_name (s :: q) ->
  reach cs ids x q i -> exists R' cs', jset (S (S n)) h (path_of (s :: q)) (reference i) = Ok (JDict R', cs') /\ hsim ids R cs R' cs'.
Proof.
  intros I X NS GS GN RC. destruct SH as [N [NR [RF _]]].
  assert (RR : reach cs ids (JDict R) (s :: q) i) by (eapply rc_dict; eauto).
  destruct (exists_last (l := s :: q)) as [init [t E]]; [discriminate|]. unfold PointersModel.jset.
  rewrite (segments_path (s :: q) GS). rewrite E in *. rewrite removelast_last.
  assert (LS : last (PathsModel.split (path_of (init ++ [t]))) "" = t).
  { unfold path_of. rewrite (last_segment "#/"); [apply last_last| |auto]. right. exists "#". reflexivity. }
  rewrite LS. cbv zeta.
  assert (V0 : valid (Root, [], JDict R)) by (split; simpl; [constructor|auto]).
  assert (S0 : forall s0, hd_error (init ++ [t]) = Some s0 -> safe (Root, [], JDict R) s0).
  { intros s0 H _ _. rewrite <- E in H. simpl in H. congruence. }
  destruct (walk_ok n init (Root, [], JDict R) [t] i V0 RR S0) as [p [P1 [P2 [P3 P4]]]].
  assert (PE : (if String.eqb (String.concat "/" init) "" then Ok (Root, [], fst h) else jget (S (S n)) h (segments (String.concat "/" init))) = Ok p).
  { destruct (String.eqb (String.concat "/" init) "") eqn:B.
    - apply reduced_empty in B; [|eapply good_init; eauto]. subst init. simpl in P1. exact P1.
    - assert (GI : good_segments init).
      { destruct (good_init _ _ GS) as [->|G]; auto. discriminate. }
      assert (SG : segments (String.concat "/" init) = init) by exact (segments_good "" init eq_refl GI).
      rewrite SG, jget_fold. exact P1. }
  rewrite PE. cbn [bind]. destruct (enter_ok p t [] i P2 P3 (P4 t eq_refl)) as [V1 [H1 [SF1 NC]]]. set (p1 := enter h p) in *.
  assert (NT : t <> "$ref") by (apply Forall_app in GN; destruct GN as [_ GN]; inversion GN as [|? ? [_ G] _]; auto).
  destruct (write_ok p1 t i I NT H1 NC) as [w [W1 [W2 W3]]]. rewrite W1. cbn [bind].
  destruct (store_ok p1 w t V1 W2 SF1) as [R' [cs' [T1 T2]]].
  - intros d D. exists (reference i). auto.
  - rewrite T1. eauto.
Qed.
End Heap.
End R.

(** ** Reading the result *)
Lemma app_assoc_s a b c : (a ++ (b ++ c) = (a ++ b) ++ c)%string.
Proof. induction a; simpl; congruence. Qed.
Lemma fold_slash q : forall x s, fold_left slash (s :: q) x = (x ++ "/" ++ String.concat "/" (s :: q))%string.
Proof.
  induction q as [|t q IH]; intros x s; [reflexivity|].
  change (fold_left slash (s :: t :: q) x) with (fold_left slash (t :: q) (slash x s)). rewrite IH. unfold slash. rewrite concat_cons.
  rewrite <- !app_assoc_s. reflexivity.
Qed.
Lemma path_string_of s q : path_string (s :: q) = path_of (s :: q).
Proof. unfold path_string, path_of. rewrite fold_slash. reflexivity. Qed.

Section Dump.
Variable cell : nat -> res val.
Lemma dump_list l v : dump_with cell (JList l) = Ok v <-> exists r, v = VList r /\ Forall2 (fun x y => dump_with cell x = Ok y) l r.
Proof.
  cbn [dump_with]. set (go := fix go l := match l with [] => Ok [] | x :: l' => let* y := dump_with cell x in let* r := go l' in Ok (y :: r) end).
  assert (A : forall l r, go l = Ok r <-> Forall2 (fun x y => dump_with cell x = Ok y) l r).
  { clear. induction l as [|x l IH]; intros r; simpl.
    - split; [intros E; injection E as <-; constructor|intros E; inversion E; auto].
    - destruct (dump_with cell x) as [y|e] eqn:X; cbn [bind].
      + destruct (go l) as [r'|e] eqn:L; cbn [bind].
        * split.
          -- intros E. injection E as <-. constructor; auto. apply IH. auto.
          -- intros E. inversion E as [|? ? ? ? E1 E2]; subst. apply IH in E2. congruence.
        * split; [discriminate|]. intros E. inversion E as [|? ? ? ? E1 E2]; subst. apply IH in E2. congruence.
      + split; [discriminate|]. intros E. inversion E as [|? ? ? ? E1 E2]; subst. congruence. }
  destruct (go l) as [r|e] eqn:L; cbn [bind].
  - split.
    + intros E. injection E as <-. exists r. split; auto. apply A. auto.
    + intros [r' [-> F]]. apply A in F. congruence.
  - split; [discriminate|]. intros [r' [-> F]]. apply A in F. congruence.
Qed.
Lemma dump_dict d v : dump_with cell (JDict d) = Ok v <->
  exists r, v = VDict r /\ Forall2 (fun kx ky => fst kx = fst ky /\ dump_with cell (snd kx) = Ok (snd ky)) d r.
Proof.
  cbn [dump_with]. set (go := fix go d := match d with [] => Ok [] | (k, x) :: d' => let* y := dump_with cell x in let* r := go d' in Ok ((k, y) :: r) end).
  assert (A : forall d r, go d = Ok r <-> Forall2 (fun (kx : key * jval) (ky : key * val) => fst kx = fst ky /\ dump_with cell (snd kx) = Ok (snd ky)) d r).
  { clear. induction d as [|[k x] d IH]; intros r; simpl.
    - split; [intros E; injection E as <-; constructor|intros E; inversion E; auto].
    - destruct (dump_with cell x) as [y|e] eqn:X; cbn [bind].
      + destruct (go d) as [r'|e] eqn:L; cbn [bind].
        * split.
          -- intros E. injection E as <-. constructor; [simpl; auto|]. apply IH. auto.
          -- intros E. inversion E as [|? [k' y'] ? ? [E1 E2] E3]; subst. simpl in E1, E2. apply IH in E3. congruence.
        * split; [discriminate|]. intros E. inversion E as [|? ? ? ? E1 E2]; subst. apply IH in E2. congruence.
      + split; [discriminate|]. intros E. inversion E as [|? ? ? ? [E1 E3] E2]; subst. simpl in E3. congruence. }
  destruct (go d) as [r|e] eqn:L; cbn [bind].
  - split.
    + intros E. injection E as <-. exists r. split; auto. apply A. auto.
    + intros [r' [-> F]]. apply A in F. congruence.
  - split; [discriminate|]. intros [r' [-> F]]. apply A in F. congruence.
Qed.
End Dump.

Section D.
Variable id_name : nat -> string.
Hypothesis id_name_good : forall i, good_name (id_name i).
Notation isref := (isref id_name).
Notation fine := (fine id_name).
Notation den := (den id_name).
Notation reference := (reference id_name).
Notation path_to_refs := (path_to_refs id_name).
Variable ids : list nat.
Variable cs : list (list (key * jval)).
Hypothesis CF : forall i, i < length cs -> fine i ids (JDict (nth i cs [])).

Lemma dump_reference cell i : dump_with cell (reference i) = Ok (VDict [(RK, VStr (path_to_refs i))]).
Proof. reflexivity. Qed.
Lemma dump_isref cell i j : isref ids i j -> exists d, dump_with cell j = Ok (VDict d) /\ NoDup (map fst d) /\ In (RK, VStr (path_to_refs i)) d
  /\ forall k x, In (k, x) d -> k = RK /\ x = VStr (path_to_refs i) \/ k <> RK /\ exists m, In m ids /\ x = VDict [(RK, VStr (path_to_refs m))].
Proof.
  intros [d [-> [N [L O]]]].
  destruct (Forall2_exists (fun kx ky => fst kx = fst ky /\ dump_with cell (snd kx) = Ok (snd ky)) d) as [r R].
  { intros [k x] I. apply (In_lookup _ _ _ N) in I. destruct (key_dec k RK) as [->|D].
    - rewrite L in I. injection I as <-. exists (RK, VStr (path_to_refs i)). auto.
    - apply lookup_In in I. destruct (O k x I) as [E|[m [M ->]]]; [contradiction|]. exists (k, VDict [(RK, VStr (path_to_refs m))]). auto. }
  assert (K : map fst r = map fst d) by exact (Forall2_keys (fun x y => dump_with cell x = Ok y) _ _ R).
  exists r. split; [apply dump_dict; eauto|]. split; [congruence|]. split.
  - apply lookup_In in L. destruct (Forall2_in_left _ _ _ _ R L) as [[k y] [Y1 [Y2 Y3]]]. simpl in *. subst. injection Y3 as <-. auto.
  - intros k y Y. destruct (Forall2_in_right _ _ _ _ R Y) as [[k' x] [X1 [X2 X3]]]. simpl in X2, X3. subst k'.
    destruct (key_dec k RK) as [->|D].
    + left. apply (In_lookup _ _ _ N) in X1. rewrite L in X1. injection X1 as <-. injection X3 as <-. auto.
    + right. split; auto. destruct (O k x X1) as [E|[m [M ->]]]; [contradiction|]. injection X3 as <-. eauto.
Qed.

Lemma dump_total n : n <= length cs -> forall m, n <= m -> forall j, fine n ids j -> exists w, dump (S m) cs j = Ok w.
Proof.
  induction n as [n IHn] using lt_wf_ind. intros L m LM j F.
  induction F as [v Lf|l F IH|d N NR F IH|i Li|i j I R].
  - exists v. reflexivity.
  - destruct (Forall2_exists (fun x y => dump (S m) cs x = Ok y) l) as [r R]; auto. exists (VList r).
    cbn [dump]. apply dump_list. exists r. split; auto.
  - destruct (Forall2_exists (fun kx ky => fst kx = fst ky /\ dump (S m) cs (snd kx) = Ok (snd ky)) d) as [r R].
    { intros [k x] I. destruct (IH k x I) as [y Y]. exists (k, y). auto. }
    exists (VDict r). cbn [dump]. apply dump_dict. exists r. split; auto.
  - cbn [dump dump_with]. destruct m as [|m]; [lia|]. apply (IHn i Li); [lia|lia|]. apply CF. lia.
  - cbn [dump]. destruct (dump_isref (fun i => dump m cs (JDict (nth i cs []))) i j R) as [d [D _]]. eauto.
Qed.

Variable refs : list (key * val).
Hypothesis RO : forall i, In i ids -> exists x m, In (KStr (id_name i), x) refs /\ dump m cs (JDict (nth i cs [])) = Ok x.

Lemma dump_denotes j s : den cs ids j s -> forall m w, dump m cs j = Ok w -> denotes refs w s.
Proof.
  induction 1 as [v L|l r E F IH|d e N NR K F IH|i s L D IH|i j s I R D IH]; intros m w W; destruct m as [|m]; try discriminate; cbn [dump] in W.
  - injection W as <-. constructor. auto.
  - apply dump_list in W. destruct W as [r' [-> W]]. constructor.
    assert (HH : forall n x y z, nth_error l n = Some x -> nth_error r' n = Some y -> nth_error r n = Some z -> denotes refs y z).
    { intros n x y z X Y Z. eapply IH; eauto. instantiate (1 := S m). cbn [dump].
      clear -W X Y. revert n X Y. induction W; intros [|n] X Y; simpl in *; try discriminate; [|eauto].
      injection X as <-. injection Y as <-. auto. }
    clear -W E HH. revert r E HH. induction W as [|x y l r' X W IH]; intros [|z r] E HH; simpl in E; try discriminate; constructor.
    + apply (HH 0 x y z); reflexivity.
    + apply IH; [congruence|]. intros n a b c A B C. apply (HH (S n) a b c); auto.
  - apply dump_dict in W. destruct W as [r [-> W]].
    assert (KR : map fst r = map fst d) by exact (Forall2_keys (fun x y => dump_with _ x = Ok y) _ _ W).
    apply dn_dict; try (rewrite KR; auto; fail). intros k y z Y Z.
    destruct (Forall2_in_right _ _ _ _ W Y) as [[k' x] [X1 [X2 X3]]]. simpl in X2, X3. subst k'. apply (IH k x z X1 Z (S m)). auto.
  - cbn [dump_with] in W. eauto.
  - destruct (dump_isref (fun i => dump m cs (JDict (nth i cs []))) i j R) as [d [DD [DN [DI _]]]]. rewrite DD in W. injection W as <-.
    destruct (RO i I) as [x [m' [X1 X2]]]. apply dn_ref with (id := id_name i) (x := x); [exact DN|exact DI|exact X1|]. apply (IH (S m')). cbn [dump dump_with]. auto.
Qed.

Lemma dump_no_dangling m : forall n j, n <= length cs -> fine n ids j -> forall w, dump m cs j = Ok w -> no_dangling refs w.
Proof.
  assert (RI : forall i, In i ids -> In (KStr (id_name i)) (map fst refs)).
  { intros i I. destruct (RO i I) as [x [_ [X _]]]. eapply in_keys; eauto. }
  assert (REF : forall d i, In i ids -> NoDup (map fst d) -> In (RK, VStr (path_to_refs i)) d -> forall d0 t, VDict d = VDict d0 -> In (RK, t) d0 ->
     exists id, t = VStr (pointer_to id) /\ In (KStr id) (map fst refs)).
  { intros d i I N L d0 t E T. injection E as <-. rewrite (keys_fun _ _ _ _ N T L). exists (id_name i). split; auto. }
  induction m as [|m IHm]; intros n j Ln F w W; [discriminate|]. revert w W.
  induction F as [v Lf|l F IH|d N NR F IH|i Li|i j I R]; intros w W; cbn [dump] in W.
  - injection W as <-. destruct v; simpl in Lf; try contradiction; constructor; intros ? ? E; discriminate.
  - apply dump_list in W. destruct W as [r [-> W]]. apply ev_list; [intros ? ? E; discriminate|]. rewrite Forall_forall.
    intros y Y. destruct (Forall2_in_right _ _ _ _ W Y) as [x [X1 X2]]. apply (IH x X1). auto.
  - apply dump_dict in W. destruct W as [r [-> W]].
    assert (KR : map fst r = map fst d) by exact (Forall2_keys (fun x y => dump_with _ x = Ok y) _ _ W).
    apply ev_dict.
    + intros d0 t E T. injection E as <-. exfalso. apply NR. rewrite <- KR. eapply in_keys; eauto.
    + rewrite Forall_forall. intros [k y] Y. simpl. destruct (Forall2_in_right _ _ _ _ W Y) as [[k' x] [X1 [X2 X3]]]. apply (IH k' x X1). auto.
  - cbn [dump_with] in W. apply (IHm i (JDict (nth i cs []))); auto; [lia|]. apply CF. lia.
  - destruct (dump_isref (fun i => dump m cs (JDict (nth i cs []))) i j R) as [d [DD [DN [DI DO]]]]. rewrite DD in W. injection W as <-.
    apply ev_dict; [eapply REF; eauto|]. rewrite Forall_forall. intros [k x] X. simpl.
    destruct (DO k x X) as [[_ ->]|[_ [m' [M ->]]]].
    + constructor. intros ? ? E; discriminate.
    + apply ev_dict.
      * eapply REF; [exact M| |simpl; auto]. repeat constructor. intros [].
      * repeat constructor. intros ? ? E; discriminate.
Qed.
Lemma dump_json m : forall n j, n <= length cs -> fine n ids j -> forall w, dump m cs j = Ok w -> json w.
Proof.
  induction m as [|m IHm]; intros n j Ln F w W; [discriminate|]. revert w W.
  induction F as [v Lf|l F IH|d N NR F IH|i Li|i j I R]; intros w W; cbn [dump] in W.
  - injection W as <-. destruct v; simpl in Lf; try contradiction; constructor.
  - apply dump_list in W. destruct W as [r [-> W]]. constructor. rewrite Forall_forall.
    intros y Y. destruct (Forall2_in_right _ _ _ _ W Y) as [x [X1 X2]]. apply (IH x X1). auto.
  - apply dump_dict in W. destruct W as [r [-> W]].
    assert (KR : map fst r = map fst d) by exact (Forall2_keys (fun x y => dump_with _ x = Ok y) _ _ W).
    constructor; [congruence|].
    rewrite Forall_forall. intros [k y] Y. simpl. destruct (Forall2_in_right _ _ _ _ W Y) as [[k' x] [X1 [X2 X3]]]. apply (IH k' x X1). auto.
  - cbn [dump_with] in W. apply (IHm i (JDict (nth i cs []))); auto; [lia|]. apply CF. lia.
  - destruct (dump_isref (fun i => dump m cs (JDict (nth i cs []))) i j R) as [d [DD [DN [DI DO]]]]. rewrite DD in W. injection W as <-.
    constructor; auto. rewrite Forall_forall. intros [k x] X. simpl.
    destruct (DO k x X) as [[_ ->]|[_ [m' [M ->]]]]; constructor; repeat constructor; intros [].
Qed.
End D.

(** ** Everything together *)
Section F.
Variable non_serializable : string -> list string.
Variable jsonable : val -> bool.
Variable annotation_of_class : string -> string.
Variable standalone : string -> bool.
Variable str_key : key -> string.
Variable str_nat : nat -> string.
Variable id_name : nat -> string.
Variable same : val -> val -> bool.
Variable int_of : string -> option Z.
Variable isdigit : string -> bool.
Hypothesis str_key_str : forall s, str_key (KStr s) = s.
Hypothesis str_nat_good : forall n, good_name (str_nat n).
Hypothesis int_str_nat : forall n, int_of (str_nat n) = Some (Z.of_nat n).
Hypothesis id_name_good : forall i, good_name (id_name i).
Hypothesis id_name_inj : forall i j, id_name i = id_name j -> i = j.
Notation ser := (ser non_serializable jsonable annotation_of_class standalone str_key str_nat id_name same).
Notation serialize := (serialize non_serializable jsonable annotation_of_class).
Notation to_dict := (to_dict non_serializable jsonable annotation_of_class standalone str_key str_nat id_name same int_of isdigit).
Notation jset := (jset int_of isdigit).
Notation occurs := (occurs non_serializable).
Notation kept c := (fun k => negb (key_within k (non_serializable c)) && negb (is_private k)).
Notation fine := (fine id_name).
Notation den := (den id_name).
Notation reach := (reach id_name str_nat).
Notation reference := (reference id_name).
Notation shape := (shape id_name).
Notation hsim := (hsim id_name).
Notation REFS := (KStr "_references").
Variable AL : Prop.
Variable dom : val -> Prop.
Hypothesis AL_ok : AL -> forall x y s t, dom x -> dom y -> same x y = true -> serialize x = Ok s -> serialize y = Ok t -> alike s t.

Lemma loop_ok n ids (all es : list entry) : incl es all -> forall (K : list key) (plain : list (key * val)) R cs,
  map fst R = K -> shape ids R cs ->
  (forall e, In e all -> exists s q x, e_path e = s :: q /\ s <> "_references" /\ good_segments (s :: q) /\ Forall good_name (s :: q)
                                    /\ In (KStr s, x) R /\ reach cs ids x q (e_id e) /\ e_id e < length cs) ->
  (AL -> forall k x y, In (k, x) R -> In (k, y) plain -> den cs ids x y) ->
  (AL -> forall i, i < length cs -> exists c d s, dom (VObj c d) /\ serialize (VObj c d) = Ok s /\ den cs ids (JCell i) s) ->
  exists R' cs', foldM (fun h e =>
           if negb (String.prefix "#/_references" (path_string (e_path e))) && memb Nat.eqb (e_id e) ids then
             if has_key RK (nth (e_id e) (snd h) []) then Ok h
             else jset (S (S n)) h (path_string (e_path e)) (reference (e_id e))
           else Ok h) es (JDict R, cs) = Ok (JDict R', cs')
   /\ map fst R' = K /\ shape ids R' cs' /\ (AL -> forall k x y, In (k, x) R' -> In (k, y) plain -> den cs' ids x y)
   /\ (AL -> forall i, i < length cs' -> exists c d s, dom (VObj c d) /\ serialize (VObj c d) = Ok s /\ den cs' ids (JCell i) s).
Proof.
  induction es as [|e es IH]; intros IN K plain R cs KR SH PA DE DC; cbn [foldM].
  - exists R, cs. auto.
  - assert (IN' : incl es all) by (intros x X; apply IN; simpl; auto).
    destruct (negb _ && memb Nat.eqb (e_id e) ids) eqn:B; cbn [bind]; [|apply IH; auto].
    apply andb_true_iff in B. destruct B as [_ B]. apply memb_In in B; [|apply Nat.eqb_eq].
    destruct (PA e (IN e (or_introl eq_refl))) as [s [q [x [E [NS [GS [GN [X [RC L]]]]]]]]].
    assert (NK : has_key RK (nth (e_id e) cs []) = false).
    { apply not_true_iff_false. intros H. apply has_key_In in H. destruct SH as [_ [_ [_ [_ [C _]]]]]. apply (C _ L). auto. }
    cbn [snd]. rewrite NK. rewrite E, path_string_of.
    destruct (jset_ok str_nat id_name int_of isdigit int_str_nat id_name_good id_name_inj ids R cs SH n s q (e_id e) x B X NS GS GN RC)
      as [R' [cs' [J HS]]].
    rewrite J. cbn [bind]. pose proof HS as [KS [VS CS]].
    destruct (IH IN' K plain R' cs') as [R2 [cs2 H2]].
    + congruence.
    + eapply shape_sim; eauto.
    + intros e' Me. destruct (PA e' Me) as [s' [q' [x' [E' [NS' [GS' [GN' [X' [RC' L']]]]]]]]].
      destruct (keys_in (KStr s') R') as [y' Y']; [rewrite <- KS; eapply in_keys; eauto|].
      exists s', q', y'. repeat (split; auto); try apply GS'.
      * eapply reach_sim; eauto. apply (VS _ _ _ X' Y').
      * destruct CS as [CL _]. lia.
    + intros A k y z Y Z. destruct (keys_in k R) as [y0 Y0]; [rewrite KS; eapply in_keys; eauto|].
      eapply den_sim; [exact id_name_inj|exact CS|apply (DE A _ _ _ Y0 Z)|apply (VS _ _ _ Y0 Y)].
    + intros A i Hi. destruct (DC A i) as [c [d [s0 [D [S1 S2]]]]]; [destruct CS as [CL _]; lia|]. exists c, d, s0. split; auto. split; auto.
      eapply den_sim; [exact id_name_inj|exact CS|exact S2|constructor].
    + exists R2, cs2. exact H2.
Qed.

Lemma to_dict_ok n c d p : wf_val (VObj c d) -> good_keys (VObj c d) ->
  (forall s, In (KStr s) (map fst d) -> serialised non_serializable c (KStr s) -> attribute_name s) ->
  (AL -> forall x, occurs x (VObj c d) -> dom x) -> serialize (VObj c d) = Ok (VDict p) ->
  exists o refs, to_dict (S (S n)) c d = Ok (VDict o) /\ NoDup (map fst o) /\ In (REFS, VDict refs) o /\ no_dangling refs (VDict o)
   /\ (forall k, In k (map fst o) <-> k = REFS \/ In k (map fst p))
   /\ (AL -> forall k x y, In (k, x) o -> In (k, y) p -> denotes refs x y)
   /\ json (VDict o)
   /\ (forall k x, In (k, x) refs -> exists i e, k = KStr (id_name i) /\ x = VDict e /\ ~ In RK (map fst e))
   /\ (AL -> forall k x, In (k, x) refs -> exists c' d' s, dom (VObj c' d') /\ serialize (VObj c' d') = Ok s /\ denotes refs x s).
Proof.
  intros W GK AN O S. pose proof S as S0. apply serialize_obj in S. destruct S as [name [items [LN [M PE]]]]. injection PE as ->.
  inversion W as [| | | | | | | |? ? ND KS WF|]; subst. inversion GK as [| | | | | | | |? ? GH GF|]; subst. simpl in GH.
  destruct GH as [GH [nm GN]]. rewrite (proj1 (In_lookup _ _ _ ND) GN) in LN. injection LN as <-.
  rewrite Forall_forall in WF, GF.
  assert (LN : lookup (KStr "name") d = Some (VStr nm)) by (apply In_lookup; auto).
  unfold PointersModel.to_dict, base_items. rewrite LN. cbn [of_option bind].
  set (base := [(KStr "object_class", JLeaf (VStr c)); (KStr "name", JLeaf (VStr nm))]).
  set (st0 := mkState [] [] []).
  assert (I0 : Inv non_serializable jsonable annotation_of_class id_name AL dom st0).
  { split; [intros i Hi; simpl in Hi; lia|]. split; [intros i []|]. split; [intros e []|]. split; [constructor|split; [intros _ e []|intros _ i Hi; simpl in Hi; lia]]. }
  destruct (dict_works non_serializable jsonable annotation_of_class standalone str_key str_nat id_name same str_key_str AL dom (kept c) d ND)
    with (p := @nil string) (st := st0) as [rs [st [E [X [I [NR [KR [GR N]]]]]]]]; auto.
  { intros k x Hx K. split; [|destruct (GH k (in_keys _ _ _ Hx)) as [s [-> [B _]]]; eauto].
    eapply ser_works; eauto.
    - apply (WF _ Hx).
    - apply (GF _ Hx).
    - intros A y Oy. apply (O A). eapply oc_obj; eauto. apply kept_iff. auto.
    - assert (Hx' : In (k, x) (filter (fun kx => kept c (fst kx)) d)) by (apply filter_In; auto).
      destruct (Forall2_in_left _ _ _ _ M Hx') as [y [_ [_ Y]]]. eauto. }
  rewrite E. cbn [bind snd fst].
  pose proof (items_nodup non_serializable jsonable annotation_of_class c d items ND M) as NI.
  pose proof (Forall2_keys (fun x y => serialize x = Ok y) _ _ M) as KI.
  assert (KK : forall k, In k (map fst rs) -> exists s, k = KStr s /\ good_name s /\ attribute_name s /\ s <> "_references" /\ s <> "object_class").
  { intros k K. apply KR in K. apply keys_in in K. destruct K as [x K]. apply filter_In in K. simpl in K. destruct K as [K1 K2].
    destruct (GH k (in_keys _ _ _ K1)) as [s [-> [B1 B2]]]. exists s. split; auto. split; auto. apply kept_iff in K2.
    split; [apply AN; auto; eapply in_keys; eauto|]. split; auto. intros ->. destruct K2 as [_ K2]. apply K2. exists "references". auto. }
  assert (NREFS : ~ In REFS (map fst rs)).
  { intros K. apply KK in K. destruct K as [s [E1 [_ [_ [E2 _]]]]]. congruence. }
  set (ids := id_memo st). set (R0 := set_key REFS (refs_of id_name ids) rs).
  assert (NR0 : NoDup (map fst R0)) by (apply nodup_set; auto).
  assert (KR0 : map fst R0 = map fst rs ++ [REFS]).
  { unfold R0. rewrite set_key_keys. destruct (has_key REFS rs) eqn:B; auto. apply has_key_In in B. contradiction. }
  assert (VR0 : forall k x, In (k, x) R0 -> k <> REFS -> In (k, x) rs).
  { intros k x K D. apply set_key_in in K; auto. destruct K as [[K _]|[_ K]]; auto. contradiction. }
  assert (RV0 : forall k x, In (k, x) rs -> In (k, x) R0).
  { intros k x K. apply In_lookup; auto. unfold R0. rewrite lookup_set_other; [apply In_lookup; auto|].
    intros ->. apply NREFS. eapply in_keys; eauto. }
  destruct I as [IC [II [IM [IN [IA IB]]]]].
  assert (SH : shape ids R0 (cells st)).
  { repeat split; auto.
    - rewrite KR0. intros K. apply in_app_iff in K. destruct K as [K|[K|[]]]; [|discriminate]. apply KK in K.
      destruct K as [s [E1 [[_ E2] _]]]. congruence.
    - apply In_lookup; auto. apply lookup_set_same.
    - apply IC. auto.
    - apply IC. auto.
    - apply IC. auto.
    - intros k x K D. destruct (GR k x (VR0 k x K D)) as [y [_ [_ [G1 _]]]]. exact G1. }
  destruct (loop_ok n ids (memo st) (memo st) (incl_refl _) (map fst R0) items R0 (cells st)) as [R' [cs' [L1 [L2 [L3 [L4 L5]]]]]]; auto.
  { intros e Me. destruct (N e Me) as [[]|[s [j [q [Q1 [Q2 [Q3 Q4]]]]]]]. simpl in Q2. exists s, q, j. split; auto.
    destruct (KK (KStr s) (in_keys _ _ _ Q1)) as [s' [E1 [G1 [[a [b [A1 [A2 A3]]]] [E2 _]]]]]. injection E1 as <-.
    split; auto. split; [|split; auto].
    split.
    - rewrite Forall_forall in Q3 |- *. intros t T. apply (Q3 t T).
    - exists a, b, q. rewrite <- A1. auto. }
  { intros A k x y K Y. assert (D : k <> REFS).
    { intros ->. apply NREFS. apply KR. rewrite <- KI. eapply in_keys; eauto. }
    destruct (GR k x (VR0 k x K D)) as [z [Z1 [Z2 [_ G2]]]]. apply (G2 A).
    destruct (Forall2_in_right _ _ _ _ M Y) as [[k' x'] [X3 [X4 X5]]]. simpl in X4, X5. subst k'. apply filter_In in X3.
    rewrite (keys_fun _ _ _ _ ND Z1 (proj1 X3)). auto. }
  unfold add_references. fold ids. fold (refs_of id_name ids). fold R0. rewrite L1. cbn [bind fst snd].
  destruct L3 as [N' [RK' [RF' [IL [CF FV]]]]].
  assert (CF1 : forall i, i < length cs' -> fine i ids (JDict (nth i cs' []))) by (intros; apply CF; auto).
  assert (NB : NoDup (map fst base)) by (repeat constructor; simpl; intuition discriminate).
  assert (NF : NoDup (map fst (update base R'))) by (apply update_nodup; auto).
  assert (VF : forall k j, In (k, j) (update base R') -> In (k, j) R' \/ (~ In k (map fst R') /\ In (k, j) base)).
  { intros k j K. apply (In_lookup _ _ _ NF) in K. rewrite update_lookup in K by auto.
    destruct (lookup k R') as [x|] eqn:L.
    - left. injection K as <-. apply lookup_In. auto.
    - right. apply lookup_None in L. split; auto. apply lookup_In. auto. }
  assert (FT : fine (length cs') ids (JDict (update base R'))).
  { constructor; auto.
    - intros K. apply update_keys in K. destruct K as [K|K]; [simpl in K; intuition discriminate|]. auto.
    - intros k x K. destruct (VF k x K) as [B|[_ B]].
      + destruct (key_dec k REFS) as [->|D]; [|eapply FV; eauto]. rewrite (keys_fun _ _ _ _ N' B RF'). constructor.
        * apply refs_nodup; auto.
        * apply lookup_None. apply refs_no_ref. auto.
        * intros k y Y. apply in_map_iff in Y. destruct Y as [i [Y1 Y2]]. injection Y1 as <- <-. constructor. auto.
      + simpl in B. destruct B as [B|[B|[]]]; inversion B; subst; constructor; exact Logic.I. }
  destruct (dump_total id_name ids cs' CF1 (length cs') (le_n _) (length cs') (le_n _) _ FT) as [w DW].
  pose proof DW as DW'. cbn [dump] in DW. apply dump_dict in DW. destruct DW as [o [-> FO]].
  assert (KO : map fst o = map fst (update base R')) by exact (Forall2_keys (fun x y => dump_with _ x = Ok y) _ _ FO).
  assert (RU : In (REFS, refs_of id_name ids) (update base R')).
  { apply In_lookup; auto. rewrite update_lookup by auto. rewrite (proj1 (In_lookup _ _ _ N') RF'). auto. }
  destruct (Forall2_in_left _ _ _ _ FO RU) as [[k rv] [RV1 [RV2 RV3]]]. simpl in RV2, RV3. subst k.
  apply dump_dict in RV3. destruct RV3 as [refs [-> FR]].
  assert (RO : forall i, In i ids -> exists x m, In (KStr (id_name i), x) refs /\ dump m cs' (JDict (nth i cs' [])) = Ok x).
  { intros i Hi. assert (Hj : In (KStr (id_name i), JCell i) (map (fun i => (KStr (id_name i), JCell i)) ids)) by (apply in_map_iff; eauto).
    destruct (Forall2_in_left _ _ _ _ FR Hj) as [[k x] [Y1 [Y2 Y3]]]. cbn [fst snd] in Y2, Y3. subst k. cbn [dump_with] in Y3. eauto. }
  assert (OR : forall k x, In (k, x) refs -> exists i m, k = KStr (id_name i) /\ In i ids /\ dump m cs' (JDict (nth i cs' [])) = Ok x).
  { intros k x Hx. destruct (Forall2_in_right _ _ _ _ FR Hx) as [[k' j] [J1 [J2 J3]]]. cbn [fst snd] in J2, J3. subst k'.
    apply in_map_iff in J1. destruct J1 as [i [J1 J2]]. injection J1 as <- <-. cbn [dump_with] in J3. eauto. }
  exists o, refs. split; [exact DW'|]. split; [rewrite KO; auto|]. split; auto. split; [|split; [|split; [|split; [|split]]]].
  - eapply dump_no_dangling with (cs := cs'); eauto.
  - intros k. rewrite KO, !update_keys, L2, KR0, in_app_iff, KR, KI. unfold base. simpl. intuition congruence.
  - intros A k x y Hx Hy. destruct (Forall2_in_right _ _ _ _ FO Hx) as [[k' j] [J1 [J2 J3]]]. simpl in J2, J3. subst k'.
    apply (In_lookup _ _ _ (update_nodup _ _ (NB : NoDup (map fst [(KStr "object_class", VStr c); (KStr "name", VStr nm)])))) in Hy.
    rewrite update_lookup in Hy by auto. destruct (VF k j J1) as [B|[B1 B2]].
    + assert (DK : k <> REFS \/ k = REFS) by (destruct (key_dec k REFS); auto). destruct DK as [DK|DK].
      * assert (KI' : In k (map fst items)).
        { rewrite KI, <- KR. assert (Q : In k (map fst R0)) by (rewrite <- L2; eapply in_keys; eauto). rewrite KR0 in Q.
          apply in_app_iff in Q. destruct Q as [Q|[Q|[]]]; auto. congruence. }
        destruct (lookup_some_key _ _ KI') as [y' Y']. rewrite Y' in Hy. injection Hy as ->.
        eapply dump_denotes with (cs := cs') (m := S (length cs')); eauto. apply (L4 A k j y); auto. apply lookup_In. auto.
      * subst k. exfalso. assert (Q : ~ In REFS (map fst items)) by (rewrite KI, <- KR; auto). apply lookup_None in Q. rewrite Q in Hy. discriminate.
    + assert (Q : ~ In k (map fst items)).
      { intros Q. apply B1. rewrite L2, KR0. apply in_app_iff. left. apply KR. rewrite <- KI. auto. }
      apply lookup_None in Q. rewrite Q in Hy. simpl in B2. destruct B2 as [B2|[B2|[]]]; inversion B2; subst; simpl in Hy, J3;
        injection Hy as <-; injection J3 as <-; constructor; exact Logic.I.
  - eapply dump_json with (cs := cs'); eauto.
  - intros k x Hx. destruct (OR k x Hx) as [i [m [-> [Hi D]]]]. destruct m as [|m]; [discriminate|]. cbn [dump] in D. apply dump_dict in D.
    destruct D as [e [-> D]]. exists i, e. split; auto. split; auto.
    rewrite (Forall2_keys (fun x y => dump_with _ x = Ok y) _ _ D). apply CF. auto.
  - intros A k x Hx. destruct (OR k x Hx) as [i [m [-> [Hi D]]]]. destruct (L5 A i (IL i Hi)) as [c' [d' [s [Q1 [Q2 Q3]]]]].
    exists c', d', s. split; auto. split; auto. eapply dump_denotes with (cs := cs') (m := S m); eauto.
Qed.
End F.

(** C11: deep copies. *)
From Coq Require Import ZArith QArith Bool String Ascii List Lia.
From Verif Require Import Base BaseProofs PyValue DataModel DataSpec DataProofs SerialProofs CopyModel CopySpec CopyProofs.
Import ListNotations.
Open Scope nat_scope.
Open Scope string_scope.
Open Scope list_scope.

Section C11.
Variable non_serializable non_data_eq : string -> list string.
Variable arguments : string -> list string.
Variable construct : string -> list (string * mval) -> res (list (key * mval)).
Variable same : nat -> nat -> bool.
Variable tuple_key : key -> bool.
Notation copy := (copy arguments construct same tuple_key).
Notation copies := (copies arguments construct).
Notation part := (part arguments).
Notation met := (met arguments).
Notation copyable := (copyable arguments).
Notation constructible := (constructible arguments construct).

(** What an object is made of. *)
Definition makes (h : heap) (a x : nat) : Prop := x = a \/ part h a x.

(** An object whose arguments are attributes, at any depth, is copied, whichever objects are
    held equal as long as no object is held equal to one of its parts.  The objects there
    were are unchanged and each object is copied once, from its arguments or those of an
    object held equal, to a new object whose arguments are the copies. *)
Theorem C11_copy : forall n a h,
  (forall x, makes h a x -> copyable h tuple_key x) ->
  (forall x c d, makes h a x -> nth_error h x = Some (c, d) -> constructible c) ->
  (forall x y, makes h a x -> part h x y -> y <> x /\ same y x = false) ->
  depth_below arguments h (S n) (MRef a) ->
  exists f rep h', copy n a h = (Ok (f a), h ++ h') /\ copies h same (h ++ h') f rep a.
Proof.
  intros n a h UC UK UP D. destruct (copy_ok arguments construct same tuple_key h n a) as [f [rep [h' [E [C _]]]]]; eauto.
  intros x y X P. destruct (UP x y X P) as [N S]. unfold held. rewrite (proj2 (PeanoNat.Nat.eqb_neq y x) N). auto.
Qed.

(** When being held equal is an equivalence, copies are shared exactly where the originals
    are held equal. *)
Theorem C11_shared : forall n a h,
  (forall x, makes h a x -> copyable h tuple_key x) ->
  (forall x c d, makes h a x -> nth_error h x = Some (c, d) -> constructible c) ->
  (forall x y, makes h a x -> part h x y -> y <> x /\ same y x = false) ->
  (forall x y, same x y = true -> same y x = true) -> (forall x y z, same x y = true -> same y z = true -> same x z = true) ->
  depth_below arguments h (S n) (MRef a) ->
  exists f rep h', copy n a h = (Ok (f a), h ++ h') /\ copies h same (h ++ h') f rep a
   /\ forall x y, met h rep a x -> met h rep a y -> (f x = f y <-> x = y \/ same x y = true).
Proof.
  intros n a h UC UK UP SY TR D. assert (UH : forall x y, makes h a x -> part h x y -> held same y x = false).
  { intros x y X P. destruct (UP x y X P) as [N S]. unfold held. rewrite (proj2 (PeanoNat.Nat.eqb_neq y x) N). auto. }
  destruct (copy_ok arguments construct same tuple_key h n a UC UK UH D) as [f [rep [h' [E [C [SR RA]]]]]].
  exists f, rep, h'. split; auto. split; auto. intros x y Mx My. rewrite (proj2 C x y Mx My).
  destruct (proj1 C x Mx) as [_ [Ix [Hx _]]]. destruct (proj1 C y My) as [_ [Iy [Hy _]]].
  assert (HR : forall z, rep z = z \/ same (rep z) z = true -> rep z <> z -> same (rep z) z = true) by tauto.
  assert (RT : forall u v, u = v \/ same u v = true -> v = u \/ same v u = true) by (intros u v [->|?]; auto).
  assert (TT : forall u v w, u = v \/ same u v = true -> v = w \/ same v w = true -> u = w \/ same u w = true).
  { intros u v w [->|?] [->|?]; auto. right; eauto. }
  split.
  - intros ER. apply TT with (rep x); auto. rewrite ER. auto.
  - intros H. destruct (PeanoNat.Nat.eq_dec x y) as [->|N]; auto.
    assert (BAD : forall z w, met h rep a z -> (rep z = a \/ part h a (rep z)) -> (rep z = z \/ same (rep z) z = true) -> w = a -> z = w \/ same z w = true -> z = a).
    { intros z w Mz [I|I] Hz -> Hw; [apply RA; auto|]. exfalso. destruct (UP a (rep z)) as [B1 B2]; [left; auto|auto|].
      destruct (TT _ _ _ Hz Hw) as [B|B]; congruence. }
    destruct (PeanoNat.Nat.eq_dec x a) as [->|NX]; [rewrite (BAD y a); auto|]. destruct (PeanoNat.Nat.eq_dec y a) as [->|NY]; [rewrite (BAD x a); auto|].
    apply SR; auto. intros z Z. unfold held. apply eq_true_iff_eq. rewrite !orb_true_iff, !PeanoNat.Nat.eqb_eq. split; intros Q.
    + apply (TT z x y); auto.
    + apply (TT z y x); auto.
Qed.

(** If objects held equal have the same data, constructors keep their arguments under their
    names, and data equality only looks at constructor arguments, the copy is data-equal to
    the original... *)
Theorem C11_data_equal : forall n a h t f rep h' t', copy n a h = (Ok (f a), h ++ h') -> copies h same (h ++ h') f rep a ->
  (forall x y u, same x y = true -> reads h (MRef y) u -> reads h (MRef x) u) ->
  (forall c kw attrs, construct c kw = Ok attrs -> NoDup (map fst attrs) /\ forall s y, In (s, y) kw -> In (KStr s, y) attrs) ->
  reads h (MRef a) t -> wf_val t -> nan_free t ->
  everywhere (fun v => forall c d s, v = VObj c d -> In (KStr s) (map fst d) -> counts non_serializable non_data_eq c (KStr s) -> In s (args arguments c)) t ->
  reads (h ++ h') (MRef (f a)) t' -> data_eq non_serializable non_data_eq t t' = true.
Proof.
  intros n a h t f rep h' t' _ C AL KP R W N CO R'.
  eapply copy_data_eq with (v := MRef a); eauto.
  - intros x u M RX. destruct (proj1 C x M) as [_ [_ [H _]]]. destruct H as [->|H]; eauto.
  - intros x H. inversion H; subst. constructor.
Qed.
(** ...and it is a tree as the original is, when constructors store nothing else than their
    arguments and simple values. *)
Theorem C11_readable : forall n a h t f rep h', copy n a h = (Ok (f a), h ++ h') -> copies h same (h ++ h') f rep a ->
  (forall x y u, same x y = true -> reads h (MRef y) u -> reads h (MRef x) u) ->
  (forall c kw attrs k y, construct c kw = Ok attrs -> In (k, y) attrs -> (exists s, k = KStr s /\ In (s, y) kw) \/ exists x, y = MLeaf x /\ leaf x = true) ->
  reads h (MRef a) t -> wf_val t -> exists t', reads (h ++ h') (MRef (f a)) t'.
Proof.
  intros n a h t f rep h' _ C AL ON R W.
  eapply copy_readable with (v := MRef a); eauto.
  - intros x u M RX. destruct (proj1 C x M) as [_ [_ [H _]]]. destruct H as [->|H]; eauto.
  - intros x H. inversion H; subst. constructor.
Qed.

(** Whatever happens, also when it raises, the objects there were are left as they were. *)
Theorem C11_originals : forall n a h, exists h', snd (copy n a h) = h ++ h'.
Proof.
  intros n a h. unfold CopyModel.copy.
  destruct (extends_object arguments construct (deepcopy_value arguments construct same tuple_key n) a (extends_value arguments construct same tuple_key n) (mkState h [])) as [e E].
  destruct (copy_object _ _ _ _ _) as [r s]. simpl in *. eauto.
Qed.

(** Nothing is skipped: a copy that succeeds has found, in the object and in everything it
    is made of, an attribute for each argument, and no key or leaf that cannot be copied.
    So an object that lacks one, at any depth, raises. *)
Theorem C11_needs : forall n a h b h', (forall x y, same x y = true -> x = y) ->
  (forall x c d, nth_error h x = Some (c, d) -> NoDup (map fst d)) ->
  copy n a h = (Ok b, h') ->
  forall x c d s, makes h a x -> nth_error h x = Some (c, d) -> In s (arguments c) -> s <> "self" ->
    exists v, In (KStr s, v) d /\ possible tuple_key v.
Proof.
  intros n a h b h' SA KE E x c d s X N A NS. unfold CopyModel.copy in E.
  destruct (tells_object arguments construct tuple_key h KE (deepcopy_value arguments construct same tuple_key n) a
    (tells_value arguments construct same tuple_key h SA KE n) (mkState h [])) as [_ T].
  { split; [exists []; simpl; rewrite app_nil_r; auto|simpl; intros ? ? []]. }
  destruct (copy_object _ _ _ _ _) as [r s1]. injection E as -> <-. destruct (T b eq_refl) as [T1 T2].
  assert (complete arguments tuple_key h x) as C by (destruct X as [->|X]; auto).
  destruct (C c d N s) as (v & L & P).
  { apply filter_In. split; auto. apply negb_true_iff, String.eqb_neq. auto. }
  exists v. split; auto. apply lookup_In; auto.
Qed.
End C11.
Print Assumptions C11_originals.
Print Assumptions C11_needs.
Print Assumptions C11_copy.
Print Assumptions C11_shared.
Print Assumptions C11_data_equal.
Print Assumptions C11_readable.

(** ** Examples: classes whose arguments are their attributes *)
Definition cx_arguments (c : string) : list string :=
  if String.eqb c "Wheel" then ["self"; "r"; "name"] else if String.eqb c "Axle" then ["self"; "wheels"; "name"] else ["self"; "axle"; "spare"; "tags"; "name"].
Definition cx_construct (c : string) (kw : list (string * mval)) : res (list (key * mval)) := Ok (map (fun sx => (KStr (fst sx), snd sx)) kw).
Definition leaf_int z := MLeaf (VInt z).
Definition leaf_str s := MLeaf (VStr s).
Definition cx_wheel r n : string * list (key * mval) := ("Wheel", [(KStr "r", leaf_int r); (KStr "name", leaf_str n)]).
(** an axle with the same wheel on both sides, another wheel, a car *)
Definition cx_heap (spare : string * list (key * mval)) : heap := [cx_wheel 1 "w"; ("Axle", [(KStr "wheels", MList [MRef 0; MRef 0]); (KStr "name", leaf_str "a")]); spare;
  ("Car", [(KStr "axle", MRef 1); (KStr "spare", MRef 2); (KStr "tags", MTuple [MDict [(KStr "used", MRef 0)]]); (KStr "name", leaf_str "c")])].
Definition never (_ _ : nat) := false.
Definition no_key (_ : key) := false.

Example C11_example : copy cx_arguments cx_construct never no_key 9 3 (cx_heap (cx_wheel 1 "x")) =
  (Ok 7, cx_heap (cx_wheel 1 "x") ++ [cx_wheel 1 "w"; ("Axle", [(KStr "wheels", MList [MRef 4; MRef 4]); (KStr "name", leaf_str "a")]); cx_wheel 1 "x";
     ("Car", [(KStr "axle", MRef 5); (KStr "spare", MRef 6); (KStr "tags", MList [MDict [(KStr "used", MRef 4)]]); (KStr "name", leaf_str "c")])]).
Proof. reflexivity. Qed.

Ltac one_of H := simpl in H; repeat destruct H as [H|H]; try contradiction.
Lemma cx_part r1 n1 x y : part cx_arguments (cx_heap (cx_wheel r1 n1)) x y -> x = 1 /\ y = 0 \/ x = 3 /\ (y = 0 \/ y = 1 \/ y = 2).
Proof.
  induction 1 as [x c d s v y E A V R|x y z P1 IH1 P2 IH2]; [|lia].
  destruct x as [|[|[|[|x]]]]; simpl in E; try (destruct x; discriminate); injection E as <- <-; one_of A; subst s; one_of V; try discriminate V; injection V as <-;
    inversion R; subst; auto;
    repeat match goal with
    | K : In _ _ |- _ => simpl in K; repeat destruct K as [K|K]; try contradiction; subst
    | K : (_, _) = (_, _) |- _ => injection K as <- <-
    | K : refers _ _ |- _ => inversion K; subst; clear K
    end; auto.
Qed.
Example C11_applies : exists f rep h', copy cx_arguments cx_construct never no_key 9 3 (cx_heap (cx_wheel 1 "x")) = (Ok (f 3), cx_heap (cx_wheel 1 "x") ++ h')
  /\ copies cx_arguments cx_construct (cx_heap (cx_wheel 1 "x")) never (cx_heap (cx_wheel 1 "x") ++ h') f rep 3
  /\ f 0 <> f 2.
Proof.
  destruct (C11_shared cx_arguments cx_construct never no_key 9 3 (cx_heap (cx_wheel 1 "x"))) as [f [rep [h' [E [C S]]]]].
  - assert (OK : forall x, x < 4 -> copyable cx_arguments (cx_heap (cx_wheel 1 "x")) no_key x).
    { intros [|[|[|[|x]]]] L; try lia; (do 2 eexists; split; [reflexivity|]; split; [repeat constructor; simpl; intuition discriminate|]; split;
        [repeat constructor; simpl; intuition discriminate|]; intros s T; one_of T; subst s; eexists; (split; [simpl; eauto|]);
        repeat (constructor; simpl; auto; try (intuition discriminate))). }
    intros x [->|P]; apply OK; [lia|]. apply cx_part in P. lia.
  - intros x c d _ _ kw _. eexists. reflexivity.
  - intros x y _ P. apply cx_part in P. split; [lia|reflexivity].
  - discriminate.
  - discriminate.
  - assert (W : forall k x, x = 0 \/ x = 2 -> depth_below cx_arguments (cx_heap (cx_wheel 1 "x")) (2 + k) (MRef x)).
    { intros k x [-> | ->] c d s v E A V; injection E as <- <-; one_of A; subst s; one_of V; try discriminate V; injection V as <-; exact I. }
    assert (AX : forall k, depth_below cx_arguments (cx_heap (cx_wheel 1 "x")) (4 + k) (MRef 1)).
    { intros k c d s v E A V; injection E as <- <-; one_of A; subst s; one_of V; try discriminate V; injection V as <-; try exact I.
      apply Forall_cons; [apply (W (0 + k)); auto|]. apply Forall_cons; [apply (W (0 + k)); auto|]. constructor. }
    intros c d s v E A V; injection E as <- <-; one_of A; subst s; one_of V; try discriminate V; injection V as <-; try exact I.
    + apply (AX 5).
    + apply (W 7). auto.
    + apply Forall_cons; [|constructor]. apply Forall_cons; [|constructor]. apply (W 5). auto.
  - exists f, rep, h'. split; auto. split; auto. intros F. 
    assert (E' := E). rewrite C11_example in E'. injection E' as F3 H'.
    assert (R3 : rep 3 = 3) by (destruct (proj1 C 3 (me_root _ _ _ _)) as [_ [_ [[H|H] _]]]; [auto|discriminate]).
    assert (M1 : met cx_arguments (cx_heap (cx_wheel 1 "x")) rep 3 0) by (eapply me_arg with (x := 3) (s := "tags"); [constructor|rewrite R3; reflexivity|simpl; auto|simpl; eauto|];
      eapply rf_tuple; [left; reflexivity|]; eapply rf_dict; [left; reflexivity|constructor]).
    assert (M2 : met cx_arguments (cx_heap (cx_wheel 1 "x")) rep 3 2) by (eapply me_arg with (x := 3) (s := "spare"); [constructor|rewrite R3; reflexivity|simpl; auto|simpl; eauto|]; constructor).
    apply (S 0 2 M1 M2) in F. destruct F as [F|F]; discriminate.
Qed.

(** Tuples become lists. *)
Theorem C11_tuples_refuted : exists h a b h' c e l, copy cx_arguments cx_construct never no_key 9 a h = (Ok b, h ++ h')
  /\ nth_error h a = Some ("Car", c) /\ In (KStr "tags", MTuple l) c /\ nth_error (h ++ h') b = Some ("Car", e) /\ ~ exists l, In (KStr "tags", MTuple l) e.
Proof.
  exists (cx_heap (cx_wheel 1 "x")), 3. do 5 eexists. split; [reflexivity|]. split; [reflexivity|]. split; [simpl; auto|]. split; [reflexivity|].
  intros [m I]. simpl in I. repeat destruct I as [I|I]; try contradiction; discriminate.
Qed.
(** Objects held equal are merged: the spare wheel takes the name of another. *)
Definition by_data (x y : nat) : bool := memb Nat.eqb x [0; 2] && memb Nat.eqb y [0; 2].
Theorem C11_names_refuted : exists h a b h' e w, copy cx_arguments cx_construct by_data no_key 9 a h = (Ok b, h ++ h')
  /\ reads h (MRef 0) (VObj "Wheel" [(KStr "r", VInt 1); (KStr "name", VStr "w")]) /\ reads h (MRef 2) (VObj "Wheel" [(KStr "r", VInt 1); (KStr "name", VStr "x")])
  /\ nth_error h a = Some ("Car", e) /\ In (KStr "spare", MRef 2) e
  /\ nth_error (h ++ h') b = Some ("Car", w) /\ exists x, In (KStr "spare", x) w /\ reads (h ++ h') x (VObj "Wheel" [(KStr "r", VInt 1); (KStr "name", VStr "w")]).
Proof.
  exists (cx_heap (cx_wheel 1 "x")), 3. do 4 eexists. split; [reflexivity|].
  split; [econstructor; [reflexivity|]; repeat constructor|]. split; [econstructor; [reflexivity|]; repeat constructor|].
  split; [reflexivity|]. split; [simpl; auto|]. split; [reflexivity|]. eexists. split; [simpl; auto|]. econstructor; [reflexivity|]. repeat constructor.
Qed.
(** A dictionary that has a tuple as key cannot be copied. *)
Theorem C11_tuple_key_refuted : exists h a s, copy cx_arguments cx_construct never (fun k => key_eqb k (KOther 0)) 9 a h = (Err TypeError, s).
Proof.
  exists [("Axle", [(KStr "wheels", MDict [(KOther 0, leaf_int 1)]); (KStr "name", leaf_str "")])], 0. eexists. reflexivity.
Qed.
(** Nor can an object that does not store an argument under its name. *)
Theorem C11_renamed_argument_refuted : exists h a s, copy cx_arguments cx_construct never no_key 9 a h = (Err AttributeError, s).
Proof.
  exists [("Wheel", [(KStr "radius", leaf_int 1); (KStr "name", leaf_str "")])], 0. eexists. reflexivity.
Qed.

(** An object whose constructor raises a TypeError is copied a second time with an empty
    memo: what it shares with the rest is then copied apart.  Here the constructor of an
    axle refuses the first copy of a wheel, and takes the second. *)
Definition cr_construct (c : string) (kw : list (string * mval)) : res (list (key * mval)) :=
  match kw with
  | (_, MList [MRef 3; _]) :: _ => Err TypeError
  | _ => cx_construct c kw
  end.
Theorem C11_retry_refuted : exists h a b h' e,
  nth_error h a = Some ("Car", [(KStr "spare", MRef 0); (KStr "axle", MRef 1)])
  /\ nth_error h 1 = Some ("Axle", [(KStr "wheels", MList [MRef 0; MRef 0]); (KStr "name", leaf_str "a")])
  /\ copy (fun c => if String.eqb c "Car" then ["self"; "spare"; "axle"] else cx_arguments c) cr_construct never no_key 9 a h = (Ok b, h ++ h')
  /\ nth_error (h ++ h') b = Some ("Car", e)
  /\ exists w x y, In (KStr "spare", MRef w) e /\ In (KStr "axle", MRef x) e
     /\ nth_error (h ++ h') x = Some ("Axle", [(KStr "wheels", MList [MRef y; MRef y]); (KStr "name", leaf_str "a")]) /\ w <> y.
Proof.
  exists [cx_wheel 1 "w"; ("Axle", [(KStr "wheels", MList [MRef 0; MRef 0]); (KStr "name", leaf_str "a")]);
          ("Car", [(KStr "spare", MRef 0); (KStr "axle", MRef 1)])], 2.
  do 3 eexists. split; [reflexivity|]. split; [reflexivity|]. split; [reflexivity|]. split; [reflexivity|].
  do 3 eexists. split; [left; reflexivity|]. split; [right; left; reflexivity|]. split; [reflexivity|]. discriminate.
Qed.
Print Assumptions C11_retry_refuted.

(** Floats that are close count as equal, so equality is not transitive, and the copy may
    not be data-equal to the original: here an object gets the position of a third one,
    that is not close to its own. *)
Fixpoint tree (n : nat) (h : heap) (v : mval) : val :=
  match n with
  | O => VNone
  | S n' =>
    match v with
    | MLeaf x => x
    | MList l => VList (map (tree n' h) l)
    | MTuple l => VTuple (map (tree n' h) l)
    | MDict d => VDict (map (fun kv => (fst kv, tree n' h (snd kv))) d)
    | MRef a => match nth_error h a with Some (c, d) => VObj c (map (fun kv => (fst kv, tree n' h (snd kv))) d) | None => VNone end
    end
  end.
Definition cf_arguments (c : string) : list string := if String.eqb c "Point" then ["self"; "x"; "name"] else ["self"; "points"; "name"].
Definition cf_eq (h : heap) (x y : nat) : bool :=
  match object_eq (fun _ => []) (fun _ => []) (fun _ => ["x"]) (fun c => c) 0%Z (fun z => z) (fun _ => 0%Z) (fun _ => 0%Z) (fun _ => 0%Z) (fun z => Some z)
          (tree 7 h (MRef x)) (tree 7 h (MRef y)) with Some b => b | None => false end.
Definition cf_point (q : Q) : string * list (key * mval) := ("Point", [(KStr "x", MLeaf (VFloat (Fin q))); (KStr "name", leaf_str "")]).
Definition cf_group (l : list nat) : string * list (key * mval) := ("Group", [(KStr "points", MList (map MRef l)); (KStr "name", leaf_str "")]).
Definition cf_heap : heap := [cf_point 0; cf_point (9 # 10000000000); cf_point (18 # 10000000000); cf_group [1]; cf_group [2]; cf_group [0; 3; 4]].
Theorem C11_close_floats_refuted : exists h a b h', copy cf_arguments cx_construct (cf_eq h) no_key 9 a h = (Ok b, h ++ h')
  /\ data_eq (fun _ => []) (fun _ => []) (tree 7 h (MRef a)) (tree 7 (h ++ h') (MRef b)) = false.
Proof. exists cf_heap, 5. do 2 eexists. split; vm_compute; reflexivity. Qed.

Print Assumptions C11_tuples_refuted.
Print Assumptions C11_names_refuted.
Print Assumptions C11_tuple_key_refuted.
Print Assumptions C11_renamed_argument_refuted.
Print Assumptions C11_close_floats_refuted.

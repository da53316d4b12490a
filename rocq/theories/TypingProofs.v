(** What values an annotation has, and lemmas on type matching. *)
From Coq Require Import ZArith QArith String Ascii List Bool Arith Lia.
From Verif Require Import Base PyValue TypingModel.
Import ListNotations.
Open Scope string_scope.
Open Scope list_scope.
Open Scope nat_scope.

Section TyInd.
Variable P : ty -> Prop.
Hypothesis HAny : P TAny.
Hypothesis HClass : forall c, P (TClass c).
Hypothesis HEll : P TEllipsis.
Hypothesis HList : forall t, P t -> P (TList t).
Hypothesis HDict : forall k v, P k -> P v -> P (TDict k v).
Hypothesis HTuple : forall l, Forall P l -> P (TTuple l).
Hypothesis HUnion : forall l, Forall P l -> P (TUnion l).
Hypothesis HGen : forall n l, Forall P l -> P (TGeneric n l).
Fixpoint ty_ind' (t : ty) : P t :=
  let all := fix all (l : list ty) : Forall P l :=
    match l with [] => Forall_nil P | x :: l' => Forall_cons x (ty_ind' x) (all l') end in
  match t with
  | TAny => HAny
  | TClass c => HClass c
  | TEllipsis => HEll
  | TList a => HList a (ty_ind' a)
  | TDict k v => HDict k v (ty_ind' k) (ty_ind' v)
  | TTuple l => HTuple l (all l)
  | TUnion l => HUnion l (all l)
  | TGeneric n l => HGen n l (all l)
  end.
End TyInd.

(** ** Values of a type *)

(** Values: instances of classes (None is the instance of NoneType), lists, tuples,
    dictionaries. *)
Inductive value :=
| Inst (c : string)
| ListV (l : list value)
| TupleV (l : list value)
| DictV (d : list (value * value)).

Definition class_of (v : value) : string :=
  match v with Inst c => c | ListV _ => "list" | TupleV _ => "tuple" | DictV _ => "dict" end.

(** The values of a type.  None is accepted everywhere and integers are accepted as floats,
    as they are by the library. *)
Inductive has_type (subclass : string -> string -> bool) : value -> ty -> Prop :=
| has_none t : has_type subclass (Inst "NoneType") t
| has_any v : has_type subclass v TAny
| has_class v c : subclass (class_of v) c = true -> has_type subclass v (TClass c)
| has_int v : subclass (class_of v) "int" = true -> has_type subclass v (TClass "float")
| has_list l a : (forall x, In x l -> has_type subclass x a) -> has_type subclass (ListV l) (TList a)
| has_dict d k a : (forall x y, In (x, y) d -> has_type subclass x k) -> (forall x y, In (x, y) d -> has_type subclass y a) ->
    has_type subclass (DictV d) (TDict k a)
| has_tuple l args : ~ In TEllipsis args -> List.length l = List.length args ->
    (forall i x a, nth_error l i = Some x -> nth_error args i = Some a -> has_type subclass x a) ->
    has_type subclass (TupleV l) (TTuple args)
| has_sequence l a : (forall x, In x l -> has_type subclass x a) -> has_type subclass (TupleV l) (TTuple [a; TEllipsis])
| has_union v args a : In a args -> has_type subclass v a -> has_type subclass v (TUnion args).

(** ** Equality of annotations *)

Lemma all2_spec {A} (f : A -> A -> bool) l : forall m, all2 f l m = true ->
  List.length l = List.length m /\ forall i x, nth_error l i = Some x -> exists y, nth_error m i = Some y /\ f x y = true.
Proof.
  induction l as [|x l IH]; intros [|y m] H; simpl in H; try discriminate.
  - split; auto. intros [|i] z Hz; discriminate.
  - apply andb_true_iff in H. destruct H as [H1 H2]. apply IH in H2. destruct H2 as [L N].
    split; [simpl; lia|]. intros [|i] z Hz; simpl in *; [injection Hz as <-; eauto|eauto].
Qed.

Lemma teq_refl t : teq t t = true.
Proof.
  induction t as [|c| |t IH|k v IH1 IH2|l IH|l IH|n l IH] using ty_ind'; simpl; auto.
  - apply String.eqb_refl.
  - rewrite IH1, IH2. auto.
  - induction IH as [|x l Hx Hl IH]; simpl; auto. rewrite Hx, IH. auto.
  - rewrite Forall_forall in IH. apply andb_true_iff. split; apply forallb_forall; intros x Hx; apply existsb_exists; eauto.
  - rewrite String.eqb_refl. simpl. induction IH as [|x l Hx Hl IH]; simpl; auto. rewrite Hx, IH. auto.
Qed.

Lemma teq_class t c : teq t (TClass c) = true -> t = TClass c.
Proof. destruct t; simpl; try discriminate. intros H. apply String.eqb_eq in H. subst. auto. Qed.

Lemma teq_ellipsis t : teq t TEllipsis = true -> t = TEllipsis.
Proof. destruct t; simpl; try discriminate. auto. Qed.

Lemma all2_in_r {A} (f : A -> A -> bool) l : forall m y, all2 f l m = true -> In y m -> exists x, In x l /\ f x y = true.
Proof.
  induction l as [|x l IH]; intros [|z m] y H I; simpl in *; try discriminate; [destruct I|].
  apply andb_true_iff in H. destruct H as [H1 H2]. destruct I as [->|I]; [eauto|].
  destruct (IH m y H2 I) as (w & Hw & E). eauto.
Qed.

Lemma teq_values subclass v a : has_type subclass v a -> forall b, teq a b = true -> has_type subclass v b.
Proof.
  induction 1 as [t|v|v c H|v H|l a H IH|d k a H1 IH1 H2 IH2|l args N L H IH|l a H IH|v args a I H IH]; intros b E.
  - constructor.
  - destruct b; try discriminate. constructor.
  - destruct b; try discriminate. simpl in E. apply String.eqb_eq in E. subst. constructor. auto.
  - destruct b; try discriminate. cbn [teq] in E. apply String.eqb_eq in E. subst. apply has_int. auto.
  - destruct b; try discriminate. simpl in E. constructor. intros x Hx. apply IH; auto.
  - destruct b; try discriminate. simpl in E. apply andb_true_iff in E. destruct E as [E1 E2].
    constructor; intros x y Hx; [eapply IH1|eapply IH2]; eauto.
  - destruct b as [| | | | |m| |]; try discriminate. simpl in E. destruct (all2_spec _ _ _ E) as [L' P].
    constructor.
    + intros I. destruct (all2_in_r _ _ _ _ E I) as (x & Hx & Ex). apply teq_ellipsis in Ex. subst. auto.
    + lia.
    + intros i x y Hx Hy. destruct (nth_error args i) as [a|] eqn:Ha.
      * destruct (P i a Ha) as (y' & Hy' & Ey). rewrite Hy in Hy'. injection Hy' as <-. eapply IH; eauto.
      * apply nth_error_None in Ha. assert (nth_error m i <> None) by congruence. apply nth_error_Some in H0. lia.
  - destruct b as [| | | | |m| |]; try discriminate. destruct m as [|y [|z [|w m]]]; simpl in E; try discriminate;
      try (rewrite ?andb_false_r in E; discriminate).
    apply andb_true_iff in E. destruct E as [E1 E2]. destruct z; try discriminate. apply has_sequence. intros x Hx. apply IH; auto.
  - destruct b as [| | | | | |m|]; try discriminate. simpl in E. apply andb_true_iff in E. destruct E as [E _].
    rewrite forallb_forall in E. specialize (E a I). apply existsb_exists in E. destruct E as (y & Hy & Ey).
    eapply has_union; eauto.
Qed.

(** ** Fuel *)

Lemma size_in x l : In x l -> size x <= fold_right (fun x n => size x + n) 0 l.
Proof. induction l as [|y l IH]; simpl; [tauto|]. intros [->|H]; [lia|apply IH in H; lia]. Qed.

Lemma size_pos t : 0 < size t.
Proof. destruct t; simpl; lia. Qed.

Lemma heal_size t : size (heal_type t) <= size t.
Proof.
  destruct t as [| | | | | |args|]; auto. simpl heal_type. destruct (union_is_default_value args); auto.
  destruct args as [|a args]; simpl; auto. lia.
Qed.

Lemma all_zip_ext {A} (f g : A -> A -> res bool) l : forall m,
  (forall x y, In x l -> In y m -> f x y = g x y) -> all_zip f l m = all_zip g l m.
Proof.
  induction l as [|x l IH]; intros [|y m] H; simpl; auto. rewrite (H x y) by (simpl; auto).
  destruct (g x y) as [[|]|]; simpl; auto. apply IH. intros a b Ha Hb. apply H; simpl; auto.
Qed.

Lemma mapM_ext_in {A B} (f g : A -> res B) l : (forall x, In x l -> f x = g x) -> mapM f l = mapM g l.
Proof.
  induction l as [|x l IH]; simpl; intros H; auto. rewrite H by auto.
  destruct (g x); simpl; auto. rewrite IH by auto. auto.
Qed.

Lemma complex_ext f g t m :
  (forall x y, size x < size t -> size y < size m -> f x y = g x y) ->
  complex_first_type_match f t m = complex_first_type_match g t m.
Proof.
  intros H. unfold complex_first_type_match. destruct (negb (is_typing m)); auto.
  pose proof (heal_size t) as St. pose proof (heal_size m) as Sm.
  destruct (heal_type t) eqn:Et; destruct (heal_type m) eqn:Em; simpl in St, Sm; auto.
  - rewrite H by lia. destruct (g _ _) as [[|]|]; simpl; auto. apply H; lia.
  - apply all_zip_ext. intros x y Hx Hy. apply size_in in Hx, Hy. apply H; lia.
Qed.

Section Fuel.
Variable subclass : string -> string -> bool.

Lemma typematch_fuel n : forall p t m, size t + size m <= n -> size t + size m <= p ->
  typematch_ subclass n t m = typematch_ subclass p t m.
Proof.
  induction n as [|n IH]; intros p t m H1 H2; pose proof (size_pos t); [lia|].
  destruct p as [|p]; [lia|]. simpl.
  destruct (teq t m || is_any m || particular_typematches t m); auto.
  destruct (is_typing t).
  - apply complex_ext. intros x y Hx Hy. apply IH; lia.
  - destruct (if negb (is_typing m) then issubclass subclass t m else Ok false) as [[|]|]; simpl; auto.
    pose proof (heal_size m) as S. destruct (heal_type m) as [| | | | | |args|]; auto.
    erewrite mapM_ext_in; [reflexivity|]. intros x Hx. apply size_in in Hx. simpl in S. apply IH; lia.
Qed.

(** the equation of the python function *)
Lemma typematch_eq t m : typematch subclass t m =
  if teq t m || is_any m || particular_typematches t m then Ok true
  else if is_typing t then complex_first_type_match (typematch subclass) t m
  else
    let* sub := if negb (is_typing m) then issubclass subclass t m else Ok false in
    if sub then Ok true
    else
      match heal_type m with
      | TUnion args => let* matches := mapM (typematch subclass t) args in Ok (existsb (fun b => b) matches)
      | _ => Ok false
      end.
Proof.
  unfold typematch at 1. pose proof (size_pos t). pose proof (size_pos m).
  destruct (size t + size m) as [|n] eqn:E; [lia|]. simpl.
  destruct (teq t m || is_any m || particular_typematches t m); auto.
  destruct (is_typing t).
  - apply complex_ext. intros x y Hx Hy. apply typematch_fuel; lia.
  - destruct (if negb (is_typing m) then issubclass subclass t m else Ok false) as [[|]|]; simpl; auto.
    pose proof (heal_size m) as S. destruct (heal_type m) as [| | | | | |args|]; auto.
    erewrite mapM_ext_in; [reflexivity|]. intros x Hx. apply size_in in Hx. simpl in S. apply typematch_fuel; lia.
Qed.
End Fuel.

(** ** Soundness *)

(** Every tuple type in an annotation has [n] arguments (Some n), or is of the form
    Tuple[t, ...] (None). *)
Inductive tuples_like (s : option nat) : ty -> Prop :=
| like_any : tuples_like s TAny
| like_class c : tuples_like s (TClass c)
| like_list a : tuples_like s a -> tuples_like s (TList a)
| like_dict k a : tuples_like s k -> tuples_like s a -> tuples_like s (TDict k a)
| like_fixed args : s = Some (List.length args) -> Forall (tuples_like s) args -> tuples_like s (TTuple args)
| like_sequence a : s = None -> tuples_like s a -> tuples_like s (TTuple [a; TEllipsis])
| like_union args : Forall (tuples_like s) args -> tuples_like s (TUnion args)
| like_generic n args : tuples_like s (TGeneric n args).

Lemma like_heal s t : tuples_like s t -> tuples_like s (heal_type t).
Proof.
  intros H. destruct t as [| | | | | |args|]; auto. simpl. destruct (union_is_default_value args); auto.
  inversion H as [ | | | | | |? F | ]; subst. destruct args as [|a args]; simpl; auto. inversion F. auto.
Qed.

Lemma like_not_ellipsis s args : Forall (tuples_like s) args -> ~ In TEllipsis args.
Proof. intros F I. rewrite Forall_forall in F. specialize (F _ I). inversion F. Qed.

Section Sound.
Variable subclass : string -> string -> bool.
Hypothesis subclass_trans : forall a b c, subclass a b = true -> subclass b c = true -> subclass a c = true.
Hypothesis none_final : forall c, subclass c "NoneType" = true -> c = "NoneType".
Hypothesis float_parents : forall c, subclass "float" c = true -> c = "float" \/ subclass "int" c = true.

(** the values of a healed type other than a class *)
Lemma heal_values t v : has_type subclass v t ->
  has_type subclass v (heal_type t) \/ is_typing (heal_type t) = false.
Proof.
  intros H. destruct t as [| | | | | |args|]; auto. simpl. destruct (union_is_default_value args) eqn:D; auto.
  unfold union_is_default_value in D. apply andb_true_iff in D. destruct D as [L D]. apply Nat.eqb_eq in L.
  destruct args as [|a [|b [|c args]]]; simpl in L; try lia. simpl.
  destruct (teq a NoneType) eqn:Ea.
  - apply teq_class in Ea. subst. right. auto.
  - left. simpl in D. rewrite Ea in D. destruct (teq b NoneType) eqn:Eb; [|discriminate]. apply teq_class in Eb. subst b.
    inversion H as [ |? |? ? |? |? ? |? ? ? |? ? |? ? |v' args' x I Hx]; subst.
    + constructor.
    + destruct I as [<-|[<-|[]]]; auto.
      inversion Hx as [ |? |v' c Hc |? |? ? |? ? ? |? ? |? ? |? ? ?]; subst; [constructor|].
      apply none_final in Hc. destruct v; simpl in Hc; try discriminate. subst. constructor.
Qed.

Lemma heal_back m v : has_type subclass v (heal_type m) -> has_type subclass v m.
Proof.
  destruct m as [| | | | | |args|]; auto. simpl. destruct (union_is_default_value args) eqn:D; auto.
  unfold union_is_default_value in D. apply andb_true_iff in D. destruct D as [L _]. apply Nat.eqb_eq in L.
  destruct args as [|a args]; simpl in *; [lia|]. intros H. eapply has_union; eauto. simpl. auto.
Qed.

Lemma all_zip_true {A} (f : A -> A -> res bool) l : forall m, all_zip f l m = Ok true ->
  forall i x y, nth_error l i = Some x -> nth_error m i = Some y -> f x y = Ok true.
Proof.
  induction l as [|a l IH]; intros [|b m] H [|i] x y Hx Hy; simpl in *; try discriminate.
  - injection Hx as <-. injection Hy as <-. destruct (f a b) as [[|]|]; simpl in H; auto; discriminate.
  - destruct (f a b) as [[|]|]; simpl in H; try discriminate. eauto.
Qed.

Lemma mapM_some {A} (f : A -> res bool) l : forall r, mapM f l = Ok r -> existsb (fun b => b) r = true ->
  exists x, In x l /\ f x = Ok true.
Proof.
  induction l as [|x l IH]; intros r H E; simpl in H; [injection H as <-; discriminate|].
  destruct (f x) as [b|] eqn:F; simpl in H; [|discriminate].
  destruct (mapM f l) as [bs|] eqn:M; simpl in H; [|discriminate]. injection H as <-. simpl in E.
  destruct b; [exists x; simpl; auto|]. destruct (IH bs eq_refl E) as (y & Hy & Ey). exists y. simpl. auto.
Qed.

Lemma typematch_sound s n : forall t m, size t + size m <= n -> tuples_like s t -> tuples_like s m ->
  typematch subclass t m = Ok true -> forall v, has_type subclass v t -> has_type subclass v m.
Proof.
  induction n as [|n IH]; intros t m Hn Lt Lm H v Hv; [pose proof (size_pos t); lia|].
  rewrite typematch_eq in H.
  destruct (teq t m) eqn:T; [eapply teq_values; eauto|].
  destruct (is_any m) eqn:A; [destruct m; try discriminate; constructor|].
  destruct (particular_typematches t m) eqn:P.
  { destruct t as [|a| | | | | |]; try discriminate. destruct m as [|b| | | | | |]; try discriminate. unfold particular_typematches in P.
    apply andb_true_iff in P. destruct P as [Pa Pb]. apply String.eqb_eq in Pa, Pb. subst.
    inversion Hv as [ |? |v' c Hc |? |? ? |? ? ? |? ? |? ? |? ? ?]; subst; [constructor|]. apply has_int. auto. }
  cbn [orb] in H. destruct (is_typing t) eqn:TT.
  - unfold complex_first_type_match in H. destruct (is_typing m) eqn:TM; cbn [negb] in H; [|discriminate].
    apply heal_back. pose proof (like_heal _ _ Lt) as Lt'. pose proof (like_heal _ _ Lm) as Lm'.
    pose proof (heal_size t) as St. pose proof (heal_size m) as Sm.
    destruct (heal_values t v Hv) as [Hv'|N];
      [|destruct (heal_type t); try discriminate; destruct (heal_type m); discriminate].
    clear Hv Lt Lm T A P TT TM. destruct (heal_type t) as [|c| |a|k a|args|args|g args]; try (destruct (heal_type m); discriminate).
    + destruct (heal_type m) as [|c'| |a'|k' a'|args'|args'|g' args']; try discriminate. simpl in St, Sm.
      inversion Lt' as [ | |? La | | | | | ]; subst. inversion Lm' as [ | |? La' | | | | | ]; subst.
      inversion Hv' as [ |? |? ? |? |l' a'' F |? ? ? |? ? |? ? |? ? ?]; subst; [constructor|].
      constructor. intros x Hx. eapply IH; try apply H; auto. lia.
    + destruct (heal_type m) as [|c'| |a'|k' a'|args'|args'|g' args']; try discriminate. simpl in St, Sm.
      inversion Lt' as [ | | |? ? Lk La | | | | ]; subst. inversion Lm' as [ | | |? ? Lk' La' | | | | ]; subst.
      destruct (typematch subclass k k') as [[|]|] eqn:K; simpl in H; try discriminate.
      inversion Hv' as [ |? |? ? |? |? ? |d' k'' a'' F1 F2 |? ? |? ? |? ? ?]; subst; [constructor|].
      constructor; intros x y Hx.
      * eapply IH; try apply K; eauto. lia.
      * eapply IH; try apply H; eauto. lia.
    + destruct (heal_type m) as [|c'| |a'|k' a'|args'|args'|g' args']; try discriminate. simpl in St, Sm.
      inversion Hv' as [ |? |? ? |? |? ? |? ? ? |l' args'' NE L F |l' a'' F |? ? ?]; subst; [constructor| |].
      * inversion Lt' as [ | | | |? Es La |a'' Es La | | ]; subst; [|simpl in NE; tauto].
        inversion Lm' as [ | | | |? Es' La' |a'' Es' La' | | ]; subst; [|discriminate].
        injection Es' as Es'. apply has_tuple; [apply (like_not_ellipsis _ _ La')|congruence|].
        intros i x y Hx Hy. destruct (nth_error args i) as [z|] eqn:Hz.
        -- pose proof (nth_error_In _ _ Hz) as Iz. pose proof (nth_error_In _ _ Hy) as Iy.
           rewrite Forall_forall in La, La'.
           eapply (IH z y); [apply size_in in Iz, Iy; lia|auto|auto|eapply all_zip_true; eauto|eauto].
        -- apply nth_error_None in Hz. assert (Q : nth_error l' i <> None) by congruence. apply nth_error_Some in Q. lia.
      * inversion Lt' as [ | | | |? Es La |a0 Es La | | ]; subst.
        { exfalso. apply (like_not_ellipsis _ _ La). simpl. auto. }
        inversion Lm' as [ | | | |? Es' La' |b0 Es' La' | | ]; subst; [discriminate|].
        apply has_sequence. intros x Hx. eapply (IH a'' b0); auto; [simpl in *; lia|].
        apply (all_zip_true _ _ _ H 0); auto.
    + destruct (heal_type m) as [|c'| |a'|k' a'|args'|args'|g' args']; try discriminate.
      injection H as H. inversion Hv' as [ |? |? ? |? |? ? |? ? ? |? ? |? ? |v' args'' x I Hx]; subst; [constructor|].
      rewrite forallb_forall in H. specialize (H x I). apply existsb_exists in H. destruct H as (y & Hy & E).
      eapply has_union; eauto. eapply teq_values; eauto.
    + destruct (heal_type m) as [|c'| |a'|k' a'|args'|args'|g' args']; try discriminate.
      destruct (String.eqb g g'); discriminate.
  - destruct (is_typing m) eqn:TM; cbn [negb bind] in H.
    + apply heal_back. pose proof (like_heal _ _ Lm) as Lm'. pose proof (heal_size m) as Sm.
      destruct (heal_type m) as [|c'| |a'|k' a'|args'|args'|g' args']; try discriminate.
      destruct (mapM (typematch subclass t) args') as [r|] eqn:M; cbn [bind] in H; [|discriminate]. injection H as H.
      destruct (mapM_some _ _ _ M H) as (x & Ix & Ex).
      inversion Lm' as [ | | | | | |? F | ]; subst. rewrite Forall_forall in F.
      eapply has_union; eauto. eapply (IH t x); auto. apply size_in in Ix. simpl in Sm. lia.
    + destruct t as [|a| | | | | |]; try discriminate. destruct m as [|b| | | | | |]; try discriminate.
      simpl in H. destruct (subclass a b) eqn:S; simpl in H; [|discriminate].
      inversion Hv as [ |? |v' c Hc |v' Hc |? ? |? ? ? |? ? |? ? |? ? ?]; subst; [constructor| |].
      * constructor. eauto.
      * destruct (float_parents _ S) as [->|I]; [apply has_int; auto|constructor; eauto].
Qed.
End Sound.

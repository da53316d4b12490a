(** Python values handled by dessia_common, as trees. *)
From Coq Require Import ZArith QArith Bool String Ascii List.
From Verif Require Import Base.
Import ListNotations.
Open Scope string_scope.
Open Scope list_scope.

(** Floats: rationals and the special values; rounding is not modelled. *)
Inductive pyfloat := Fin (q : Q) | PInf | NInf | NaN.

(** Dictionary keys.  [KOther] stands for hashable keys that cannot be ordered (None,
    classes, objects without order).  Tuples as keys are left out. *)
Inductive key := KStr (s : string) | KInt (z : Z) | KOther (n : nat).

(** Values.  Lists and tuples are the two kinds of sequences.  A dictionary is the list
    of its items in insertion order.  An object is given by its full class name and its
    [__dict__] (keys are always [KStr]); it is an instance of a DessiaObject subclass
    with the default [_data_eq] and [_eq_is_data_eq = True].  A class is given by its
    full name and whether it inherits from DessiaObject. *)
Inductive val :=
| VNone
| VBool (b : bool)
| VInt (z : Z)
| VFloat (f : pyfloat)
| VStr (s : string)
| VList (l : list val)
| VTuple (l : list val)
| VDict (d : list (key * val))
| VObj (c : string) (attrs : list (key * val))
| VClass (name : string) (dessia : bool).

Definition key_eqb (a b : key) : bool :=
  match a, b with
  | KStr s, KStr t => String.eqb s t
  | KInt x, KInt y => Z.eqb x y
  | KOther n, KOther m => Nat.eqb n m
  | _, _ => false
  end.

(** [dict_[key]], [key in dict_] *)
Fixpoint lookup {A} (k : key) (d : list (key * A)) : option A :=
  match d with
  | [] => None
  | (j, x) :: d' => if key_eqb k j then Some x else lookup k d'
  end.
Definition has_key {A} (k : key) (d : list (key * A)) : bool :=
  match lookup k d with Some _ => true | None => false end.

(** [dict_[key] = value]: replaces in place or appends. *)
Fixpoint set_key {A} (k : key) (x : A) (d : list (key * A)) : list (key * A) :=
  match d with
  | [] => [(k, x)]
  | (j, y) :: d' => if key_eqb k j then (k, x) :: d' else (j, y) :: set_key k x d'
  end.

(** is_sequence, utils/helpers.py:83-97 (utils/types.py:56-72 for these values) *)
Definition seq_of (v : val) : option (list val) :=
  match v with VList l => Some l | VTuple l => Some l | _ => None end.

(** Python's dictionaries have distinct keys, at any depth. *)
Inductive wf_val : val -> Prop :=
| wf_none : wf_val VNone
| wf_bool b : wf_val (VBool b)
| wf_int z : wf_val (VInt z)
| wf_float f : wf_val (VFloat f)
| wf_str s : wf_val (VStr s)
| wf_list l : Forall wf_val l -> wf_val (VList l)
| wf_tuple l : Forall wf_val l -> wf_val (VTuple l)
| wf_dict d : NoDup (map fst d) -> Forall (fun kv => wf_val (snd kv)) d -> wf_val (VDict d)
| wf_obj c d : NoDup (map fst d) -> Forall (fun kv => exists s, fst kv = KStr s) d ->
    Forall (fun kv => wf_val (snd kv)) d -> wf_val (VObj c d)
| wf_class n b : wf_val (VClass n b).

(** A property of every value inside a value. *)
Inductive everywhere (P : val -> Prop) : val -> Prop :=
| ev_none : P VNone -> everywhere P VNone
| ev_bool b : P (VBool b) -> everywhere P (VBool b)
| ev_int z : P (VInt z) -> everywhere P (VInt z)
| ev_float f : P (VFloat f) -> everywhere P (VFloat f)
| ev_str s : P (VStr s) -> everywhere P (VStr s)
| ev_list l : P (VList l) -> Forall (everywhere P) l -> everywhere P (VList l)
| ev_tuple l : P (VTuple l) -> Forall (everywhere P) l -> everywhere P (VTuple l)
| ev_dict d : P (VDict d) -> Forall (fun kv => everywhere P (snd kv)) d -> everywhere P (VDict d)
| ev_obj c d : P (VObj c d) -> Forall (fun kv => everywhere P (snd kv)) d -> everywhere P (VObj c d)
| ev_class n b : P (VClass n b) -> everywhere P (VClass n b).

(** Induction over values with hypotheses for the values inside. *)
Section Ind.
Variable P : val -> Prop.
Hypothesis HNone : P VNone.
Hypothesis HBool : forall b, P (VBool b).
Hypothesis HInt : forall z, P (VInt z).
Hypothesis HFloat : forall f, P (VFloat f).
Hypothesis HStr : forall s, P (VStr s).
Hypothesis HList : forall l, Forall P l -> P (VList l).
Hypothesis HTuple : forall l, Forall P l -> P (VTuple l).
Hypothesis HDict : forall d, Forall (fun kv => P (snd kv)) d -> P (VDict d).
Hypothesis HObj : forall c d, Forall (fun kv => P (snd kv)) d -> P (VObj c d).
Hypothesis HClass : forall n b, P (VClass n b).

Fixpoint val_ind' (v : val) : P v :=
  match v with
  | VNone => HNone
  | VBool b => HBool b
  | VInt z => HInt z
  | VFloat f => HFloat f
  | VStr s => HStr s
  | VList l => HList l ((fix go l : Forall P l :=
      match l with [] => Forall_nil _ | x :: l' => Forall_cons x (val_ind' x) (go l') end) l)
  | VTuple l => HTuple l ((fix go l : Forall P l :=
      match l with [] => Forall_nil _ | x :: l' => Forall_cons x (val_ind' x) (go l') end) l)
  | VDict d => HDict d ((fix go d : Forall (fun kv => P (snd kv)) d :=
      match d with [] => Forall_nil _ | kv :: d' => Forall_cons kv (val_ind' (snd kv)) (go d') end) d)
  | VObj c d => HObj c d ((fix go d : Forall (fun kv => P (snd kv)) d :=
      match d with [] => Forall_nil _ | kv :: d' => Forall_cons kv (val_ind' (snd kv)) (go d') end) d)
  | VClass n b => HClass n b
  end.
End Ind.

(** ** Lemmas on dictionaries *)
Lemma key_eqb_eq a b : key_eqb a b = true <-> a = b.
Proof.
  destruct a, b; simpl; split; intros H; try discriminate.
  - apply String.eqb_eq in H. congruence.
  - inversion H. apply String.eqb_refl.
  - apply Z.eqb_eq in H. congruence.
  - inversion H. apply Z.eqb_refl.
  - apply Nat.eqb_eq in H. congruence.
  - inversion H. apply Nat.eqb_refl.
Qed.
Lemma key_eqb_refl k : key_eqb k k = true.
Proof. apply key_eqb_eq; reflexivity. Qed.
Lemma key_eqb_neq a b : key_eqb a b = false <-> a <> b.
Proof.
  destruct (key_eqb a b) eqn:E.
  - apply key_eqb_eq in E. split; [discriminate|contradiction].
  - split; auto. intros _ H. subst. rewrite key_eqb_refl in E. discriminate.
Qed.
Lemma key_dec (a b : key) : {a = b} + {a <> b}.
Proof.
  destruct (key_eqb a b) eqn:E; [left; apply key_eqb_eq; auto|right; apply key_eqb_neq; auto].
Qed.

Section Dict.
Context {A : Type}.
Implicit Types d : list (key * A).

Lemma lookup_In k x d : lookup k d = Some x -> In (k, x) d.
Proof.
  induction d as [|[j y] d IH]; simpl; [discriminate|]. destruct (key_eqb k j) eqn:E; intros H.
  - apply key_eqb_eq in E. left. congruence.
  - right; auto.
Qed.
Lemma lookup_None k d : lookup k d = None <-> ~ In k (map fst d).
Proof.
  induction d as [|[j y] d IH]; simpl; [split; auto|]. destruct (key_eqb k j) eqn:E.
  - apply key_eqb_eq in E. split; [discriminate|]. intros H. exfalso. apply H. auto.
  - apply key_eqb_neq in E. rewrite IH. split; intros H; [intros [Q|Q]; auto|tauto].
Qed.
Lemma lookup_nodup k x d : NoDup (map fst d) -> (lookup k d = Some x <-> In (k, x) d).
Proof.
  intros ND. split; [apply lookup_In|]. induction d as [|[j y] d IH]; simpl; [intros []|].
  inversion ND; subst. intros [E|I].
  - inversion E; subst. rewrite key_eqb_refl. reflexivity.
  - destruct (key_eqb k j) eqn:E; auto. apply key_eqb_eq in E. subst. exfalso. apply H1.
    apply in_map_iff. exists (j, x). auto.
Qed.
Lemma lookup_some_key k d : In k (map fst d) -> exists x, lookup k d = Some x.
Proof. intros H. destruct (lookup k d) eqn:E; eauto. apply lookup_None in E. contradiction. Qed.
Lemma has_key_In k d : has_key k d = true <-> In k (map fst d).
Proof.
  unfold has_key. destruct (lookup k d) eqn:E.
  - split; auto. intros _. apply lookup_In in E. apply in_map_iff. exists (k, a). auto.
  - apply lookup_None in E. split; [discriminate|contradiction].
Qed.
Lemma lookup_set_same k x d : lookup k (set_key k x d) = Some x.
Proof.
  induction d as [|[j y] d IH]; simpl; [rewrite key_eqb_refl; auto|].
  destruct (key_eqb k j) eqn:E; simpl; [rewrite key_eqb_refl; auto|rewrite E; auto].
Qed.
Lemma lookup_set_other k k' x d : k' <> k -> lookup k' (set_key k x d) = lookup k' d.
Proof.
  intros D. induction d as [|[j y] d IH]; simpl.
  - apply key_eqb_neq in D. rewrite D. auto.
  - destruct (key_eqb k j) eqn:E; simpl.
    + apply key_eqb_eq in E. subst j. apply key_eqb_neq in D. rewrite D. auto.
    + rewrite IH. auto.
Qed.
Lemma set_key_keys k x d : map fst (set_key k x d) = if has_key k d then map fst d else map fst d ++ [k].
Proof.
  unfold has_key. induction d as [|[j y] d IH]; simpl; auto. destruct (key_eqb k j) eqn:E; simpl.
  - apply key_eqb_eq in E. subst. reflexivity.
  - rewrite IH. destruct (lookup k d); reflexivity.
Qed.
Lemma filter_nodup (p : key * A -> bool) d : NoDup (map fst d) -> NoDup (map fst (filter p d)).
Proof.
  induction d as [|kv d IH]; simpl; intros H; [constructor|]. inversion H; subst. destruct (p kv); simpl; auto.
  constructor; auto. intros I. apply in_map_iff in I. destruct I as [q [E I]]. apply filter_In in I. apply H2.
  rewrite <- E. apply in_map. tauto.
Qed.
End Dict.

(** Proofs about what is read in a workbook, and about the exchange of an object. *)
From Coq Require Import Ascii String ZArith QArith Bool Arith Lia.
From Verif Require Import Base TableModel TableProofs ExcelModel ExcelSpec ExcelProofs ExcelWritten.
From Verif Require BreakdownModel BreakdownSpec BreakdownProofs BreakdownOrder.
From Coq Require Import List Permutation.
Import ListNotations.
Open Scope list_scope.
Open Scope nat_scope.

Lemma mapM_ok {A B} (f : A -> res B) l l' : Forall2 (fun x y => f x = Ok y) l l' -> mapM f l = Ok l'.
Proof. induction 1 as [|x y l l' E F IH]; simpl; auto. rewrite E, IH. auto. Qed.
Lemma mapM_forall {A B} (f : A -> res B) l : forall l', mapM f l = Ok l' -> Forall2 (fun x y => f x = Ok y) l l'.
Proof.
  induction l as [|x l IH]; intros l' E; simpl in E; [injection E as <-; constructor|].
  destruct (f x) as [y|] eqn:F; [|discriminate]. simpl in E. destruct (mapM f l) as [ys|]; [|discriminate].
  simpl in E. injection E as <-. constructor; auto.
Qed.
Lemma mapM_app {A B} (f : A -> res B) l m : mapM f (l ++ m) = let* xs := mapM f l in let* ys := mapM f m in Ok (xs ++ ys).
Proof.
  induction l as [|x l IH]; simpl; [destruct (mapM f m); auto|]. destruct (f x); simpl; auto. rewrite IH.
  destruct (mapM f l); simpl; auto. destruct (mapM f m); simpl; auto.
Qed.
Lemma mapM_repeat {A B} (f : A -> res B) x y n : f x = Ok y -> mapM f (repeat x n) = Ok (repeat y n).
Proof. intros E. induction n as [|n IH]; simpl; auto. rewrite E, IH. auto. Qed.
Lemma foldM_app {A S} (f : S -> A -> res S) l m s : foldM f (l ++ m) s = let* s' := foldM f l s in foldM f m s'.
Proof. revert s. induction l as [|x l IH]; intros s; simpl; auto. destruct (f s x); simpl; auto. Qed.
Lemma exists_forall2 {A B} (P : A -> B -> Prop) l : (forall x, In x l -> exists y, P x y) -> exists l', Forall2 P l l'.
Proof.
  induction l as [|x l IH]; intros H; [exists []; constructor|].
  destruct (H x (or_introl eq_refl)) as [y Hy]. destruct IH as [l' Hl]; [intros z Hz; apply H; simpl; auto|].
  exists (y :: l'). constructor; auto.
Qed.
Lemma forall2_in_l {A B} (P : A -> B -> Prop) l l' : Forall2 P l l' -> forall x, In x l -> exists y, In y l' /\ P x y.
Proof. induction 1 as [|x y l l' E F IH]; intros z []; [subst; exists y; simpl; auto|]. destruct (IH z H) as (w & W1 & W2). exists w. simpl; auto. Qed.
Lemma forall2_in_r {A B} (P : A -> B -> Prop) l l' : Forall2 P l l' -> forall y, In y l' -> exists x, In x l /\ P x y.
Proof. induction 1 as [|x y l l' E F IH]; intros z []; [subst; exists x; simpl; auto|]. destruct (IH z H) as (w & W1 & W2). exists w. simpl; auto. Qed.
Lemma forall2_nth {A B} (P : A -> B -> Prop) l l' : Forall2 P l l' -> forall n x, nth_error l n = Some x -> exists y, nth_error l' n = Some y /\ P x y.
Proof. induction 1 as [|x y l l' E F IH]; intros [|n] z H; try discriminate; [injection H as <-; exists y; auto|]. apply IH. auto. Qed.
Lemma forall2_length {A B} (P : A -> B -> Prop) l l' : Forall2 P l l' -> List.length l = List.length l'.
Proof. induction 1; simpl; auto. Qed.
Lemma forall2_map {A B C} (P : A -> B -> Prop) (f : A -> C) (g : B -> C) l l' :
  Forall2 P l l' -> (forall x y, P x y -> f x = g y) -> map f l = map g l'.
Proof. intros F H. induction F as [|x y l l' E F IH]; simpl; auto. rewrite (H x y E), IH. auto. Qed.
Lemma forall2_impl {A B} (P Q : A -> B -> Prop) l l' : Forall2 P l l' -> (forall x y, In x l -> P x y -> Q x y) -> Forall2 Q l l'.
Proof. intros F. induction F as [|x y l l' E F IH]; intros H; constructor; [apply H; simpl; auto|]. apply IH. intros a b Ha. apply H. simpl; auto. Qed.

Lemma forall2_both {A B} (P : A -> B -> Prop) l l' : Forall2 P l l' -> Forall2 (fun x y => In x l /\ In y l' /\ P x y) l l'.
Proof.
  intros F. assert (G : forall a b, (forall x, In x l -> In x a) -> (forall y, In y l' -> In y b) -> Forall2 (fun x y => In x a /\ In y b /\ P x y) l l').
  { induction F as [|x y l l' E F IH]; intros a b Ha Hb; constructor; [simpl in *; auto|].
    apply IH; intros z Hz; [apply Ha|apply Hb]; simpl; auto. }
  apply G; auto.
Qed.

(** ** Rows of a sheet *)

Lemma nth_seq {A} (d : A) l : forall n, List.length l <= n -> map (fun j => nth j l d) (seq 0 n) = l ++ repeat d (n - List.length l).
Proof.
  induction l as [|x l IH]; intros n H; simpl in *.
  - rewrite Nat.sub_0_r. clear. generalize 0 as s. induction n as [|n IH]; intros s; simpl; auto. rewrite IH. destruct s; auto.
  - destruct n as [|n]; [lia|]. simpl. f_equal. rewrite <- seq_shift, map_map. simpl. apply IH. lia.
Qed.

Lemma width_row s row : In row (grid s) -> List.length row <= width s.
Proof.
  unfold width. induction (grid s) as [|r g IH]; simpl; [tauto|]. intros [->|H]; [lia|]. specialize (IH H). lia.
Qed.

Definition pads (s : sheet) (cs : list cell) : list cell := repeat blank (width s - 1 - List.length cs).

Lemma row_from_2 s r c0 cs : nth_error (grid s) r = Some (c0 :: cs) -> row_from s (S r) 2 = cs ++ pads s cs.
Proof.
  intros H. pose proof (width_row s _ (nth_error_In _ _ H)) as W. simpl in W.
  unfold row_from, pads. replace (width s + 1 - 2) with (width s - 1) by lia.
  assert (E : forall j, cell_at s (S r) (S (S j)) = nth j cs blank).
  { intros j. unfold cell_at. replace (S r - 1) with r by lia. rewrite (nth_error_nth _ _ _ H). simpl. auto. }
  change 2 with (S (S 0)). rewrite <- !seq_shift, !map_map.
  rewrite (map_ext _ (fun j => nth j cs blank)); [|intros j; apply E]. apply nth_seq. lia.
Qed.

Lemma cell_at_row s r c cs n : nth_error (grid s) r = Some cs -> nth_error cs n = Some c -> cell_at s (S r) (S n) = c.
Proof.
  intros H Hc. unfold cell_at. replace (S r - 1) with r by lia. replace (S n - 1) with n by lia.
  rewrite (nth_error_nth _ _ _ H). apply nth_error_nth. auto.
Qed.

Lemma columns_in a k x : In (k, x) (columns a) <-> In (k, x) a /\ public k = true /\ k <> "name"%string.
Proof.
  unfold columns. rewrite (Permutation_in' (eq_refl (k, x)) (sort_perm _)). rewrite filter_In. simpl.
  rewrite andb_true_iff, negb_true_iff, String.eqb_neq. tauto.
Qed.

Lemma columns_nodup a : NoDup (map fst a) -> NoDup ("name"%string :: map fst (columns a)).
Proof.
  intros N. constructor.
  - intros H. apply in_map_iff in H. destruct H as ([k x] & E & H). simpl in E. subst. apply columns_in in H. tauto.
  - eapply Permutation_NoDup; [apply Permutation_map, Permutation_sym, columns_perm|]. apply NoDup_map_filter. auto.
Qed.

Lemma get_columns a k : NoDup (map fst a) -> public k = true -> k <> "name"%string -> get k (columns a) = get k a.
Proof.
  intros N P K. destruct (get k a) as [x|] eqn:E.
  - apply in_get; [apply columns_nodup in N; inversion N; auto|]. apply columns_in. split; auto. apply get_in. auto.
  - apply get_none_iff. intros H. apply in_map_iff in H. destruct H as ([k' x] & E' & H). simpl in E'. subst.
    apply columns_in in H. destruct H as [H _]. apply get_none_iff in E. apply E. apply (in_map fst _ _ H).
Qed.

Section Read.
Variable pystr : value -> string.
Variable literal : string -> option value.
Variable round6 : Q -> Q.
Variable classes : string -> res (list (string * option value)).
Notation plain_class := (plain_class pystr literal round6 classes).
Notation kept := (kept pystr literal round6).
Notation evaluated := (evaluated literal).

(** ** Creating an object *)

Lemma get_data_pads (params : list (string * option value)) : forall n vs d, fold_left (fun d (av : scalar * value) =>
               match fst av with
               | CText a => match get a params with
                            | Some _ => put a (evaluated (snd av)) d
                            | None => d
                            end
               | _ => d
               end) (combine (repeat CNone n) vs) d = (d : list (string * value)).
Proof. induction n as [|n IH]; intros [|x vs] d; simpl; auto. Qed.

Lemma get_data_get (params : list (string * option value)) n extra k : forall keys vals d, NoDup keys -> List.length vals = List.length keys ->
  get k (fold_left (fun d (av : scalar * value) =>
               match fst av with
               | CText a => match get a params with
                            | Some _ => put a (evaluated (snd av)) d
                            | None => d
                            end
               | _ => d
               end) (combine (map CText keys ++ repeat CNone n) (vals ++ extra)) d)
  = match get k params, get k (combine keys vals) with
    | Some _, Some r => Some (evaluated r)
    | _, _ => get k d
    end.
Proof.
  induction keys as [|k0 keys IH]; intros [|x vals] d N L; try discriminate; simpl.
  - rewrite get_data_pads. destruct (get k params); auto.
  - inversion N as [|? ? N1 N2]. subst. simpl in L. injection L as L.
    rewrite IH by auto.
    assert (X : k = k0 -> get k (combine keys vals) = None).
    { intros ->. apply get_none_iff. intros H. apply N1. apply in_map_iff in H. destruct H as ([a b] & E & H).
      simpl in E. subst a. eapply in_combine_l; eauto. }
    destruct (get k0 params) eqn:P.
    + rewrite get_put. destruct (String.eqb_spec k0 k) as [->|Nk].
      * rewrite P, X by auto. auto.
      * auto.
    + destruct (String.eqb_spec k0 k) as [->|Nk]; auto. rewrite P. auto.
Qed.

Lemma kept_name_get a : NoDup (map fst a) -> kept_name pystr literal round6 a ->
  exists s, get "name" a = Some (VStr s) /\ (s = ""%string \/ kept (VStr s)).
Proof. intros N (s & I & K). exists s. split; auto. apply in_get; auto. Qed.

(** the header of the sheet of an object *)
Definition good_header (a : list (string * value)) (h : list scalar) : Prop :=
  exists n, h = CText "name" :: map CText (map fst (columns a)) ++ repeat CNone n.

Lemma extract_ok m c i a h data : plain_class (VObj m c i a) -> good_header a h ->
  extract_of classes m c h data = Ok {| module_name := m; class_name := c; header := h; rows_of := data |}.
Proof.
  intros ((params & E & P) & N & K & I & _) [n ->]. unfold extract_of, missed_attribute. unfold full_name.
  cbn [module_name class_name header bind].
  rewrite E. cbn [bind]. match goal with |- context [if ?b then _ else _] => destruct b end; [reflexivity|].
  match goal with |- context [existsb ?f params] => assert (X : existsb f params = false) end.
  { apply not_true_is_false. intros T. apply existsb_exists in T. destruct T as ([k d] & Hk & T). cbn [fst snd] in T.
    apply andb_true_iff in T. destruct T as [T _]. apply negb_true_iff in T.
    assert (Ka : In k (map fst a)) by (eapply Permutation_in; [apply Permutation_sym; eauto|apply (in_map fst _ _ Hk)]).
    destruct (I k Ka) as [Ik Pk].
    assert (in_header k (CText "name" :: map CText (map fst (columns a)) ++ repeat CNone n) = true); [|congruence].
    unfold in_header. apply existsb_exists. exists (CText k). split; [|simpl; apply String.eqb_refl].
    destruct (String.eqb_spec k "name") as [->|Nk]; [simpl; auto|]. right. apply in_app_iff. left.
    apply in_map. apply in_map_iff in Ka. destruct Ka as ([k' x] & Ek & Hx). simpl in Ek. subst k'.
    apply in_map_iff. exists (k, x). split; auto. apply columns_in. rewrite public_iff. auto. }
  rewrite X. reflexivity.
Qed.

Lemma create_ok m c i a h data nv vals extra : plain_class (VObj m c i a) -> good_header a h ->
  Forall2 (fun kx r => canon (evaluated r) = canon (snd kx)) (columns a) vals ->
  (forall s, get "name" a = Some (VStr s) -> (s <> ""%string /\ evaluated nv = VStr s) \/ (s = ""%string /\ falsy (evaluated nv) = true)) ->
  exists w, create_object literal classes {| module_name := m; class_name := c; header := h; rows_of := data |} (nv :: vals ++ extra) = Ok w
    /\ canon w = canon (VObj m c i a).
Proof.
  intros ((params & E & P) & N & K & I & _) [n ->] F Nm.
  destruct (kept_name_get a N K) as (s & Gs & Ks).
  unfold create_object, full_name. cbn [module_name class_name header]. rewrite E. cbn [bind].
  set (h := CText "name" :: map CText (map fst (columns a)) ++ repeat CNone n).
  set (D := get_data literal (nv :: vals ++ extra) h params).
  assert (Np : NoDup (map fst params)) by (eapply Permutation_NoDup; eauto).
  assert (Lv : List.length vals = List.length (map fst (columns a))).
  { rewrite map_length. symmetry. eapply forall2_length; eauto. }
  assert (G : forall k, In k (map fst params) -> get k D = option_map evaluated (get k (combine ("name"%string :: map fst (columns a)) (nv :: vals)))).
  { intros k Hk. unfold D, get_data, h.
    change (CText "name" :: map CText (map fst (columns a)) ++ repeat CNone n)
      with (map CText ("name"%string :: map fst (columns a)) ++ repeat CNone n).
    change (nv :: vals ++ extra) with ((nv :: vals) ++ extra).
    rewrite get_data_get by (auto using columns_nodup; simpl; congruence).
    destruct (get_some_key k params Hk) as [d ->].
    destruct (get k (combine ("name"%string :: map fst (columns a)) (nv :: vals))); auto. }
  (* the value read for an attribute *)
  assert (V : forall k z, get k a = Some z -> k <> "name"%string -> exists r, get k D = Some r /\ canon r = canon z).
  { intros k z Hk Nk.
    assert (Ka : In k (map fst a)) by (apply get_in in Hk; apply (in_map fst _ _ Hk)).
    rewrite G by (eapply Permutation_in; eauto). cbn [combine get]. destruct (String.eqb_spec "name" k); [congruence|].
    destruct (I k Ka) as [_ Pk]. apply public_iff in Pk. rewrite <- (get_columns a k N Pk Nk) in Hk.
    clear - Hk F. revert Hk. induction F as [|[k' y] r cols rs Er F IH]; simpl; [discriminate|].
    destruct (String.eqb k' k); [|exact IH]. intros E. injection E as ->. exists (evaluated r). split; auto. }
  assert (VN : get "name" D = Some (evaluated nv)).
  { rewrite G; [reflexivity|]. eapply Permutation_in; eauto. apply get_in in Gs. apply (in_map fst _ _ Gs). }
  assert (AllD : forall k, In k (map fst params) -> exists r, get k D = Some r).
  { intros k Hk. assert (Ka : In k (map fst a)) by (eapply Permutation_in; [apply Permutation_sym; eauto|auto]).
    destruct (String.eqb_spec k "name") as [->|Nk]; [eauto|].
    destruct (get_some_key k a Ka) as [z Hz]. destruct (V k z Hz Nk) as (r & R & _). eauto. }
  set (dflt := fun k => match get k D with Some r => r | None => VNone end).
  set (a' := map (fun p : string * option value => (fst p, dflt (fst p))) params).
  assert (M : mapM (fun p : string * option value => match get (fst p) D, snd p with
                           | Some x, _ => Ok (fst p, x)
                           | None, Some x => Ok (fst p, x)
                           | None, None => Err TypeError
                           end) params = Ok a').
  { apply mapM_ok. unfold a'. clear - AllD. clearbody D. revert AllD. induction params as [|[k d] ps IH]; intros A; constructor.
    - simpl. unfold dflt. destruct (A k (or_introl eq_refl)) as [r ->]. auto.
    - apply IH. intros k' Hk'. apply A. simpl; auto. }
  assert (Ka' : map fst a' = map fst params) by (unfold a'; rewrite map_map; auto).
  assert (Ga' : forall k, In k (map fst params) -> get k a' = get k D).
  { intros k Hk. destruct (AllD k Hk) as [r R]. rewrite R. apply in_get; [rewrite Ka'; auto|].
    unfold a'. apply in_map_iff in Hk. destruct Hk as ([k' d] & Ek & Hk). simpl in Ek. subst.
    apply in_map_iff. exists (k, d). split; auto. simpl. unfold dflt. rewrite R. auto. }
  assert (Hname : In "name"%string (map fst params)).
  { eapply Permutation_in; eauto. apply get_in in Gs. apply (in_map fst _ _ Gs). }
  unfold init. cbv zeta. rewrite M. cbn [bind]. rewrite (Ga' _ Hname), VN. cbn [bind module_name class_name].
  unfold named. rewrite (Ga' _ Hname), VN.
  set (a'' := if falsy (evaluated nv) then put "name" (VStr "") a' else a').
  exists (VObj m c 0 a''). split; [unfold a''; destruct (falsy (evaluated nv)); auto|].
  simpl. f_equal.
  assert (Na'' : map fst a'' = map fst params).
  { unfold a''. destruct (falsy (evaluated nv)); auto. rewrite put_keys; auto. rewrite Ka'. auto. }
  assert (GN : get "name" a'' = Some (VStr s)).
  { unfold a''. destruct (Nm s Gs) as [[Hs Hv]|[Hs Hv]].
    - rewrite Hv. simpl. destruct (String.eqb_spec s ""); [congruence|]. rewrite (Ga' _ Hname), VN, Hv. auto.
    - rewrite Hv, get_put, String.eqb_refl. subst. auto. }
  apply sort_same; rewrite ?map_keys, ?Na''; auto.
  intros k. rewrite !get_map. destruct (String.eqb_spec k "name") as [->|Nk]; [rewrite GN, Gs; auto|].
  assert (Gk : get k a'' = get k a').
  { unfold a''. destruct (falsy (evaluated nv)); auto. rewrite get_put. destruct (String.eqb_spec "name" k); [congruence|auto]. }
  rewrite Gk. destruct (get k a) as [z|] eqn:Hz.
  - assert (Hk : In k (map fst params)).
    { eapply Permutation_in; eauto. apply get_in in Hz. apply (in_map fst _ _ Hz). }
    rewrite Ga' by auto. destruct (V k z Hz Nk) as (r & -> & Er). simpl. rewrite Er. auto.
  - assert (get k a' = None) as ->; auto. apply get_none_iff. rewrite Ka'. intros H. apply get_none_iff in Hz.
    apply Hz. eapply Permutation_in; [apply Permutation_sym; eauto|auto].
Qed.

(** ** Cells of kept values *)

Lemma kept_cell same rows z : kept z ->
  exists cc, value_cell same pystr round6 rows z = Ok (bare cc) /\ evaluated (scalar_value (stored_scalar cc)) = z.
Proof.
  intros [s St L|q R|w Hw St L].
  - exists (CText s). split; auto. rewrite stored_text by auto. simpl. rewrite L. auto.
  - exists (CNum (round6 q)). split; auto. simpl. rewrite R. auto.
  - exists (CText (pystr w)). split.
    + destruct w as [| | | | |l| | | |]; try tauto; auto. unfold value_cell, compute_cell_link, cell_content.
      rewrite Hw. destruct l as [|x l]; [reflexivity|]. rewrite Hw. reflexivity.
    + rewrite stored_text by auto. simpl. rewrite L. auto.
Qed.
End Read.

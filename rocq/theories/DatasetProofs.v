(** Proofs about datasets. *)
From Coq Require Import ZArith Bool String Lia Sorted Permutation List.
From Verif Require Import Base BaseProofs DatasetModel DatasetSpec.
Import ListNotations.
Open Scope nat_scope.

(** ** Positions *)
Lemma py_index_designates : forall n z p, py_index n z = Some p <-> designates n z p.
Proof.
  intros n z p; unfold py_index, designates.
  destruct (0 <=? z)%Z eqn:E1; [apply Z.leb_le in E1|apply Z.leb_gt in E1].
  - destruct (z <? Z.of_nat n)%Z eqn:E2; [apply Z.ltb_lt in E2|apply Z.ltb_ge in E2]; split.
    + intros H; injection H as <-; split; [lia|left; lia].
    + intros [H [->| ->]]; f_equal; lia.
    + discriminate.
    + intros [H [->| ->]]; exfalso; lia.
  - destruct (- Z.of_nat n <=? z)%Z eqn:E2; [apply Z.leb_le in E2|apply Z.leb_gt in E2]; split.
    + intros H; injection H as <-; split; [lia|right; lia].
    + intros [H [->| ->]]; f_equal; lia.
    + discriminate.
    + intros [H [->| ->]]; exfalso; lia.
Qed.
Lemma py_index_none : forall n z, py_index n z = None <-> forall p, ~ designates n z p.
Proof.
  intros n z; split.
  - intros H p D; apply py_index_designates in D; congruence.
  - intros H; destruct (py_index n z) as [p|] eqn:E; [|reflexivity].
    exfalso; exact (H p (proj1 (py_index_designates n z p) E)).
Qed.

Lemma mark_length : forall l i, length (mark i l) = length l.
Proof. induction l as [|b l IH]; intros [|i]; simpl; auto. Qed.
Lemma nth_error_mark : forall l i j, i < length l ->
  nth_error (mark i l) j = if Nat.eqb i j then Some true else nth_error l j.
Proof.
  induction l as [|b l IH]; intros i j H; simpl in *; [lia|].
  destruct i as [|i], j as [|j]; simpl; try reflexivity.
  apply IH; lia.
Qed.
Lemma marks_spec : forall zs l l', foldM py_mark zs l = Ok l' ->
  length l' = length l /\
  forall p, nth_error l' p = Some true <-> nth_error l p = Some true \/ exists z, In z zs /\ designates (length l) z p.
Proof.
  induction zs as [|z zs IH]; intros l l' H; simpl in H.
  - injection H as <-; split; [reflexivity|].
    intros p; split; [left; assumption|intros [H|(z & [] & _)]; exact H].
  - unfold py_mark in H at 1; destruct (py_index (length l) z) as [i|] eqn:E; [|discriminate]; simpl in H.
    destruct (IH _ _ H) as [L M]; rewrite mark_length in *; split; [exact L|].
    pose proof (py_index_lt _ _ _ E) as Li.
    pose proof (proj1 (py_index_designates _ _ _) E) as Di.
    intros p; rewrite (M p), (nth_error_mark l i p Li); split.
    + intros [H1|(z' & I & D)].
      * destruct (Nat.eqb i p) eqn:Ep; [|left; exact H1].
        apply Nat.eqb_eq in Ep; subst p; right; exists z; split; [left; reflexivity|exact Di].
      * right; exists z'; split; [right; exact I|exact D].
    + intros [H1|(z' & [<-|I] & D)].
      * left; destruct (Nat.eqb i p); [reflexivity|exact H1].
      * left; apply py_index_designates in D; rewrite E in D; injection D as <-.
        rewrite Nat.eqb_refl; reflexivity.
      * right; exists z'; split; assumption.
Qed.
Lemma marks_ok : forall zs l, (forall z, In z zs -> exists p, designates (length l) z p) -> exists l', foldM py_mark zs l = Ok l'.
Proof.
  induction zs as [|z zs IH]; intros l H; simpl; [eexists; reflexivity|].
  destruct (H z (or_introl eq_refl)) as (p & D); apply py_index_designates in D.
  unfold py_mark at 1; rewrite D; simpl.
  apply IH; intros z' I; rewrite mark_length; apply H; right; exact I.
Qed.
Lemma marks_err : forall zs l, (exists z, In z zs /\ forall p, ~ designates (length l) z p) -> foldM py_mark zs l = Err IndexError.
Proof.
  induction zs as [|z zs IH]; intros l (z' & I & N); simpl in *; [contradiction|].
  unfold py_mark at 1; destruct (py_index (length l) z) as [i|] eqn:E; simpl; [|reflexivity].
  apply IH; exists z'; rewrite mark_length; split; [|exact N].
  destruct I as [->|I]; [|exact I].
  apply py_index_designates in E; exfalso; exact (N _ E).
Qed.

(** a mask picks the marked positions *)
Fixpoint positions (o : nat) (mask : list bool) : list nat :=
  match mask with [] => [] | b :: m => if b then o :: positions (S o) m else positions (S o) m end.
Lemma positions_spec : forall mask o p, In p (positions o mask) <-> o <= p /\ nth_error mask (p - o) = Some true.
Proof.
  induction mask as [|b m IH]; intros o p; simpl.
  - split; [contradiction|]; intros [_ H]; destruct (p - o); discriminate.
  - assert (In p (positions (S o) m) <-> S o <= p /\ nth_error (b :: m) (p - o) = Some true) as K.
    { rewrite IH; split; intros [H1 H2]; (split; [exact H1|]).
      - replace (p - o) with (S (p - S o)) by lia; exact H2.
      - replace (p - o) with (S (p - S o)) in H2 by lia; exact H2. }
    destruct b; simpl; rewrite K; split.
    + intros [<-|[H1 H2]]; [split; [lia|rewrite Nat.sub_diag; reflexivity]|split; [lia|exact H2]].
    + intros [H1 H2]; destruct (Nat.eq_dec o p) as [E|N]; [left; exact E|right; split; [lia|exact H2]].
    + intros [H1 H2]; split; [lia|exact H2].
    + intros [H1 H2]; destruct (Nat.eq_dec o p) as [E|N]; [|split; [lia|exact H2]].
      subst p; rewrite Nat.sub_diag in H2; discriminate.
Qed.
Lemma positions_sorted : forall mask o, StronglySorted lt (positions o mask).
Proof.
  induction mask as [|b m IH]; intros o; simpl; [constructor|].
  destruct b; [|apply IH]; constructor; [apply IH|].
  apply Forall_forall; intros p I; apply positions_spec in I; lia.
Qed.
Lemma compress_picks : forall A (mask : list bool) (l : list A) o l0, length mask = length l ->
  (forall i x, nth_error l i = Some x -> nth_error l0 (o + i) = Some x) ->
  picks (positions o mask) l0 (compress l mask).
Proof.
  intros A; induction mask as [|b m IH]; intros [|x l] o l0 H K; simpl in *; try discriminate; [constructor|].
  assert (picks (positions (S o) m) l0 (compress l m)) as T.
  { apply IH; [lia|]; intros i y Hy; specialize (K (S i) y Hy); rewrite Nat.add_succ_r in K; exact K. }
  destruct b; [|exact T]; constructor; [|exact T].
  rewrite <- (Nat.add_0_r o); apply K; reflexivity.
Qed.
Lemma positions_bound : forall mask o p, In p (positions o mask) -> p < o + length mask.
Proof.
  intros mask o p I; apply positions_spec in I as [H E].
  assert (p - o < length mask) by (apply nth_error_Some; congruence); lia.
Qed.

(** strictly increasing lists with the same elements are the same *)
Lemma sorted_unique : forall l l', StronglySorted lt l -> StronglySorted lt l' ->
  (forall p, In p l <-> In p l') -> l = l'.
Proof.
  induction l as [|x l IH]; intros [|y l'] S1 S2 H.
  - reflexivity.
  - exfalso; apply (proj2 (H y)); left; reflexivity.
  - exfalso; apply (proj1 (H x)); left; reflexivity.
  - inversion S1 as [|? ? S1' F1]; subst; inversion S2 as [|? ? S2' F2]; subst.
    rewrite Forall_forall in F1, F2.
    assert (x = y) as ->.
    { destruct (proj1 (H x) (or_introl eq_refl)) as [E|I]; [symmetry; exact E|].
      destruct (proj2 (H y) (or_introl eq_refl)) as [E|I']; [exact E|].
      specialize (F1 _ I'); specialize (F2 _ I); lia. }
    f_equal; apply IH; try assumption.
    intros p; split; intros I.
    + destruct (proj1 (H p) (or_intror I)) as [<-|I']; [|exact I'].
      specialize (F1 _ I); lia.
    + destruct (proj2 (H p) (or_intror I)) as [<-|I']; [|exact I'].
      specialize (F2 _ I); lia.
Qed.

Lemma picks_forall2 : forall A B (R : A -> B -> Prop) ps l m l' m', Forall2 R l m ->
  picks ps l l' -> picks ps m m' -> Forall2 R l' m'.
Proof.
  intros A B R ps l m l' m' F P; revert m'; induction P as [|p x ps l' Hp P IH]; intros m' Q;
    inversion Q as [|? y ? m'' Hq Q']; subst; constructor.
  - clear - F Hp Hq; revert p Hp Hq; induction F as [|a b l m Hab F IH]; intros [|p] Hp Hq; simpl in *; try discriminate.
    + injection Hp as <-; injection Hq as <-; exact Hab.
    + eapply IH; eassumption.
  - apply IH; exact Q'.
Qed.
Lemma picks_in : forall A ps (l l' : list A) x, picks ps l l' -> In x l' -> In x l.
Proof.
  intros A ps l l' x P; induction P as [|p y ps l' Hp P IH]; intros I; [contradiction|].
  destruct I as [<-|I]; [eapply nth_error_In; exact Hp|apply IH; exact I].
Qed.
Lemma take_picks : forall A ps (l : list A), (forall p, In p ps -> p < length l) -> picks ps l (take l ps).
Proof.
  intros A; induction ps as [|p ps IH]; intros l H; simpl; [constructor|].
  destruct (nth_error l p) as [x|] eqn:E.
  - constructor; [exact E|apply IH; intros; apply H; right; assumption].
  - exfalso; apply nth_error_None in E; specialize (H p (or_introl eq_refl)); lia.
Qed.
Lemma picks_permutation : forall A (l l' : list A) ps, Permutation ps (seq 0 (length l)) -> picks ps l l' -> Permutation l' l.
Proof.
  intros A l l' ps P Q.
  assert (l' = take l ps) as ->.
  { induction Q as [|p x ps l' Hp Q IH]; [reflexivity|]; simpl; rewrite Hp; simpl; f_equal.
    clear - Q; induction Q as [|p x ps l' Hp Q IH]; [reflexivity|]; simpl; rewrite Hp; simpl; f_equal; exact IH. }
  unfold take; etransitivity; [apply Permutation_flat_map; exact P|].
  assert (forall (l0 : list A) o, (forall i x, nth_error l i = Some x -> nth_error l0 (o + i) = Some x) ->
            flat_map (fun p => match nth_error l0 p with Some x => [x] | None => [] end) (seq o (length l)) = l) as K.
  { clear; induction l as [|x l IH]; intros l0 o H; simpl; [reflexivity|].
    assert (nth_error l0 o = Some x) as -> by (rewrite <- (Nat.add_0_r o); apply H; reflexivity).
    simpl; f_equal; apply IH; intros i y Hy; specialize (H (S i) y Hy); rewrite Nat.add_succ_r in H; exact H. }
  rewrite K by (intros; assumption); reflexivity.
Qed.

Lemma Forall2_impl : forall A B (R R' : A -> B -> Prop) l m, (forall x y, R x y -> R' x y) -> Forall2 R l m -> Forall2 R' l m.
Proof. intros A B R R' l m H F; induction F; constructor; auto. Qed.

Lemma Forall2_len : forall A B (R : A -> B -> Prop) l m, Forall2 R l m -> length l = length m.
Proof. intros A B R l m F; induction F; simpl; congruence. Qed.

(** ** Slices *)
Lemma clip_bounds : forall n z low high, (low <= high)%Z -> (low <= clip n z low high <= high)%Z.
Proof.
  intros n z low high H; unfold clip.
  set (z' := if (z <? 0)%Z then (z + n)%Z else z); clearbody z'.
  destruct (Z.ltb_spec z' low); [lia|].
  destruct (Z.ltb_spec high z'); lia.
Qed.
Lemma clip_nonneg : forall n z, (0 <= z)%Z -> (0 <= n)%Z -> clip n z 0 n = Z.min z n.
Proof.
  intros n z H N; unfold clip; destruct (Z.ltb_spec z 0); [lia|].
  destruct (Z.ltb_spec z 0); [lia|]; destruct (Z.ltb_spec n z); lia.
Qed.
Lemma range_up : forall fuel start stop step i p, (0 < step)%Z -> (0 <= start)%Z -> (stop - start <= Z.of_nat fuel)%Z ->
  nth_error (range fuel start stop step) i = Some p <->
  (Z.of_nat p = start + Z.of_nat i * step /\ start + Z.of_nat i * step < stop)%Z.
Proof.
  induction fuel as [|fuel IH]; intros start stop step i p S0 S1 F; assert (0 <= Z.of_nat i * step)%Z as P by (apply Z.mul_nonneg_nonneg; lia); cbn [range].
  - split; [destruct i; discriminate|]; intros [H1 H2]; exfalso; lia.
  - assert ((0 <? step)%Z = true) as -> by (apply Z.ltb_lt; exact S0).
    destruct (start <? stop)%Z eqn:E; [apply Z.ltb_lt in E|apply Z.ltb_ge in E].
    + destruct i as [|i]; cbn [nth_error].
      * split; [intros H; injection H as <-; lia|intros [H1 H2]; f_equal; lia].
      * rewrite IH by lia; rewrite Nat2Z.inj_succ, Z.mul_succ_l; split; intros [H1 H2]; split; lia.
    + split; [destruct i; discriminate|]; intros [H1 H2]; exfalso; lia.
Qed.
Lemma range_down : forall fuel start stop step i p, (step < 0)%Z -> (-1 <= stop)%Z -> (start - stop <= Z.of_nat fuel)%Z ->
  nth_error (range fuel start stop step) i = Some p <->
  (Z.of_nat p = start + Z.of_nat i * step /\ stop < start + Z.of_nat i * step)%Z.
Proof.
  induction fuel as [|fuel IH]; intros start stop step i p S0 S1 F; assert (Z.of_nat i * step <= 0)%Z as P by (apply Z.mul_nonneg_nonpos; lia); cbn [range].
  - split; [destruct i; discriminate|]; intros [H1 H2]; exfalso; lia.
  - assert ((0 <? step)%Z = false) as -> by (apply Z.ltb_ge; lia).
    destruct (stop <? start)%Z eqn:E; [apply Z.ltb_lt in E|apply Z.ltb_ge in E].
    + destruct i as [|i]; cbn [nth_error].
      * split; [intros H; injection H as <-; lia|intros [H1 H2]; f_equal; lia].
      * rewrite IH by lia; rewrite Nat2Z.inj_succ, Z.mul_succ_l; split; intros [H1 H2]; split; lia.
    + split; [destruct i; discriminate|]; intros [H1 H2]; exfalso; lia.
Qed.

(** ** Datasets *)
Section Data.
Variable Obj V : Type.
Variable cls : Obj -> nat.
Variable vector_features : Obj -> list string.
Variable to_vector : Obj -> list V.
Notation dataset := (dataset Obj V).
Notation objects := (objects Obj V).
Notation cached := (cached Obj V).
Notation common := (common Obj V).
Notation compute_common := (compute_common Obj cls vector_features).
Notation common_attributes := (common_attributes Obj V cls vector_features).
Notation reads := (reads vector_features to_vector).
Notation advertised := (advertised vector_features cls).
Notation aligned := (aligned vector_features to_vector cls).
Notation sound := (sound vector_features to_vector cls).
Notation well_described := (well_described vector_features to_vector cls).
Notation getitem := (getitem Obj V).
Notation matrix := (matrix Obj V cls vector_features to_vector).

Lemma slice_in : forall n b e s ps p, slice_positions n b e s = Ok ps -> In p ps -> p < n.
Proof.
  intros n b e s ps p; unfold slice_positions.
  set (st := match s with Some z => z | None => 1%Z end).
  destruct (st =? 0)%Z eqn:E0; [discriminate|apply Z.eqb_neq in E0].
  destruct (0 <? st)%Z eqn:E1; [apply Z.ltb_lt in E1|apply Z.ltb_ge in E1]; intros H; injection H as <-; intros I;
    apply In_nth_error in I as (i & Hi).
  - assert (0 <= match b with Some z => clip (Z.of_nat n) z 0 (Z.of_nat n) | None => 0 end)%Z as B
      by (destruct b as [z|]; [apply clip_bounds; lia|lia]).
    assert (match e with Some z => clip (Z.of_nat n) z 0 (Z.of_nat n) | None => Z.of_nat n end <= Z.of_nat n)%Z as E
      by (destruct e as [z|]; [apply clip_bounds; lia|lia]).
    apply range_up in Hi; lia.
  - assert (match b with Some z => clip (Z.of_nat n) z (-1) (Z.of_nat n - 1) | None => Z.of_nat n - 1 end <= Z.of_nat n - 1)%Z as B
      by (destruct b as [z|]; [apply clip_bounds; lia|lia]).
    assert (-1 <= match e with Some z => clip (Z.of_nat n) z (-1) (Z.of_nat n - 1) | None => -1 end)%Z as E
      by (destruct e as [z|]; [apply clip_bounds; lia|lia]).
    apply range_down in Hi; try lia; nia.
Qed.

Lemma string_eqb_iff : forall x y, String.eqb x y = true <-> x = y.
Proof. exact String.eqb_eq. Qed.

(** *** Common attributes *)
Lemma one_instance_in : forall l seen o, In o (one_instance Obj cls seen l) -> In o l.
Proof.
  induction l as [|x l IH]; intros seen o; simpl; [tauto|].
  destruct (memb Nat.eqb (cls x) seen); [intros H; right; eapply IH; exact H|].
  intros [->|H]; [left; reflexivity|right; eapply IH; exact H].
Qed.
Lemma one_instance_all : forall l seen o, In o l -> In (cls o) seen \/ exists o', In o' (one_instance Obj cls seen l) /\ cls o' = cls o.
Proof.
  induction l as [|x l IH]; intros seen o; simpl; [tauto|].
  intros I; destruct (memb Nat.eqb (cls x) seen) eqn:E.
  - apply (memb_In Nat.eqb Nat.eqb_eq) in E; destruct I as [->|I]; [left; exact E|apply IH; exact I].
  - destruct I as [->|I]; [right; exists o; split; [left; reflexivity|reflexivity]|].
    destruct (IH (cls x :: seen) o I) as [[C|C]|(o' & I' & C)].
    + right; exists x; split; [left; reflexivity|exact C].
    + left; exact C.
    + right; exists o'; split; [right; exact I'|exact C].
Qed.
Lemma compute_common_in : forall l a, well_described l ->
  (In a (compute_common l) <-> l <> [] /\ forall o, In o l -> In a (vector_features o)).
Proof.
  intros l a [_ WF]; destruct l as [|x l]; [split; [contradiction|intros [H _]; congruence]|].
  unfold DatasetModel.compute_common; set (l0 := x :: l) in *.
  rewrite (dedup_In String.eqb string_eqb_iff), filter_In, in_flat_map, forallb_forall; split.
  - intros [[_ F] _]; split; [discriminate|]; intros o I.
    destruct (one_instance_all l0 [] o I) as [[]|(o' & I' & C)].
    rewrite <- (WF o' o (one_instance_in _ _ _ I') I C).
    apply (memb_In String.eqb string_eqb_iff); apply F; exact I'.
  - intros [_ H]; split; [split|intros []].
    + assert (In x l0) as Ix by (left; reflexivity).
      destruct (one_instance_all l0 [] x Ix) as [[]|(o' & I' & C)].
      exists o'; split; [exact I'|apply H; eapply one_instance_in; exact I'].
    + intros o I; apply (memb_In String.eqb string_eqb_iff); apply H; eapply one_instance_in; exact I.
Qed.
Lemma compute_common_nodup : forall l, NoDup (compute_common l).
Proof. intros [|x l]; simpl; [constructor|apply (dedup_NoDup String.eqb string_eqb_iff)]. Qed.

(** *** The matrix *)
Lemma matrix_row_ok : forall c o row, matrix_row Obj V vector_features to_vector c o = Ok row <-> Forall2 (reads o) c row.
Proof.
  intros c o row; unfold matrix_row.
  assert (forall a v, match index_of String.eqb a (vector_features o) with
                      | Some i => match nth_error (to_vector o) i with Some v => Ok v | None => Err IndexError end
                      | None => Err ValueError end = Ok v <-> reads o a v) as K.
  { intros a v; unfold DatasetSpec.reads; split.
    - destruct (index_of String.eqb a (vector_features o)) as [i|] eqn:E; [|discriminate].
      destruct (nth_error (to_vector o) i) as [v'|] eqn:Ev; [|discriminate]; intros H; injection H as ->.
      exists i; split; [apply (index_of_Some String.eqb string_eqb_iff) in E; apply E|split; [|exact Ev]].
      clear Ev; revert i E; induction (vector_features o) as [|b l IH]; intros i E j Hj; simpl in E; [discriminate|].
      destruct (String.eqb a b) eqn:Eb; [injection E as <-; lia|].
      destruct (index_of String.eqb a l) as [k|]; [|discriminate]; injection E as <-.
      destruct j as [|j]; simpl; [intros H; injection H as ->; rewrite String.eqb_refl in Eb; discriminate|].
      apply (IH k eq_refl); lia.
    - intros (i & Hi & M & Hv).
      assert (index_of String.eqb a (vector_features o) = Some i) as ->; [|rewrite Hv; reflexivity].
      clear Hv; revert i Hi M; induction (vector_features o) as [|b l IH]; intros i Hi M; simpl in *; [destruct i; discriminate|].
      destruct i as [|i]; simpl in *; [injection Hi as ->; rewrite String.eqb_refl; reflexivity|].
      destruct (String.eqb a b) eqn:Eb.
      + apply String.eqb_eq in Eb; subst b; exfalso; apply (M 0); [lia|reflexivity].
      + rewrite (IH i Hi); [reflexivity|]; intros j Hj; apply (M (S j)); lia. }
  split.
  - intros H; apply mapM_ok_inv in H; eapply Forall2_impl; [|exact H]; intros a v; apply K.
  - intros H; apply mapM_ok; eapply Forall2_impl; [|exact H]; intros a v; apply K.
Qed.
Lemma reads_exists : forall o a, length (to_vector o) = length (vector_features o) -> In a (vector_features o) -> exists v, reads o a v.
Proof.
  intros o a L I; destruct (index_of_In String.eqb string_eqb_iff a _ I) as (i & E).
  destruct (index_of_Some String.eqb string_eqb_iff _ _ _ E) as [Hi Li].
  destruct (nth_error (to_vector o) i) as [v|] eqn:Ev; [|apply nth_error_None in Ev; lia].
  assert (matrix_row Obj V vector_features to_vector [a] o = Ok [v]) as R by (unfold matrix_row; simpl; rewrite E, Ev; reflexivity).
  apply matrix_row_ok in R; inversion R as [|? ? ? ? R1 R2]; subst; exists v; exact R1.
Qed.
Lemma reads_functional : forall o a v v', reads o a v -> reads o a v' -> v = v'.
Proof.
  intros o a v v' H H'.
  assert (Forall2 (reads o) [a] [v]) as R by (constructor; [exact H|constructor]).
  assert (Forall2 (reads o) [a] [v']) as R' by (constructor; [exact H'|constructor]).
  apply matrix_row_ok in R; apply matrix_row_ok in R'; rewrite R in R'; injection R' as ->; reflexivity.
Qed.

Lemma matrix_sound : forall d, sound d -> well_described (objects d) ->
  exists m d', matrix d = Ok (m, d') /\ objects d' = objects d /\ common_attributes d' = common_attributes d
    /\ plain _ _ d' = plain _ _ d /\ cached d' = Some m
    /\ Forall2 (fun o row => Forall2 (reads o) (common_attributes d) row) (objects d) m /\ sound d'.
Proof.
  intros d (A & L & ST) [W WF]; unfold DatasetModel.matrix.
  destruct (cached d) as [m|] eqn:E.
  - exists m, d; repeat split; try assumption; auto.
  - assert (exists m, mapM (matrix_row Obj V vector_features to_vector (common_attributes d)) (objects d) = Ok m
              /\ Forall2 (fun o row => Forall2 (reads o) (common_attributes d) row) (objects d) m) as (m & Em & Fm).
    { assert (forall o, In o (objects d) -> exists row, Forall2 (reads o) (common_attributes d) row) as R.
      { intros o I.
        assert (forall a, In a (common_attributes d) -> exists v, reads o a v) as K
          by (intros a Ia; apply reads_exists; [apply W; exact I|apply A; assumption]).
        clear - K; induction (common_attributes d) as [|a c IH]; [exists []; constructor|].
        destruct (K a (or_introl eq_refl)) as (v & Hv).
        destruct IH as (row & Hr); [intros; apply K; right; assumption|].
        exists (v :: row); constructor; assumption. }
      assert (exists m, Forall2 (fun o row => Forall2 (reads o) (common_attributes d) row) (objects d) m) as (m & Fm).
      { clear - R; induction (objects d) as [|o l IH]; [exists []; constructor|].
        destruct (R o (or_introl eq_refl)) as (row & Hr).
        destruct IH as (m & Hm); [intros; apply R; right; assumption|].
        exists (row :: m); constructor; assumption. }
      exists m; split; [|exact Fm].
      apply mapM_ok; eapply Forall2_impl; [|exact Fm]; intros o row; apply matrix_row_ok. }
    rewrite Em; simpl.
    set (d' := {| plain := plain Obj V d; DatasetModel.objects := objects d; DatasetModel.common := keep_common Obj V cls vector_features d; DatasetModel.cached := Some m |}).
    assert (common_attributes d' = common_attributes d) as EC.
    { unfold DatasetModel.common_attributes, d', keep_common; simpl.
      destruct (common d); [reflexivity|]; destruct (objects d); reflexivity. }
    exists m, d'; repeat split; try assumption; try reflexivity.
    + intros o a Io Ia; rewrite EC in Ia; apply A; assumption.
    + intros m' Hm'; injection Hm' as <-; rewrite EC; exact Fm.
    + unfold d', keep_common; intros NE _; simpl in *; destruct (common d); [discriminate|].
      destruct (objects d); [contradiction|discriminate].
Qed.

(** *** Selection *)
Lemma aligned_length : forall d m, aligned d -> cached d = Some m -> length m = length (objects d).
Proof. intros d m A E; specialize (A m E); apply Forall2_len in A; symmetry; exact A. Qed.

Lemma boolist_restricted : forall d mask, aligned d -> length mask = length (objects d) ->
  restricted (positions 0 mask) d (pick_from_boolist Obj V d mask).
Proof.
  intros d mask A L; unfold restricted, pick_from_boolist; simpl; repeat split.
  - apply compress_picks; [exact L|intros; assumption].
  - destruct (cached d) as [m|] eqn:E; [|exact Logic.I].
    apply compress_picks; [rewrite (aligned_length d m A E); exact L|intros; assumption].
Qed.

Lemma restricted_sound : forall ps d d', sound d -> well_described (objects d) -> restricted ps d d' ->
  objects d <> [] -> sound d'.
Proof.
  intros ps d d' (A & L & ST) W (P & C & _ & M) NE.
  assert (well_described (objects d')) as W'.
  { destruct W as [W1 W2]; split; intros; [apply W1|apply W2]; try assumption; eapply picks_in; eassumption. }
  specialize (ST NE).
  split; [|split].
  - intros o a Io Ia; unfold DatasetModel.common_attributes in Ia; rewrite C in Ia.
    destruct (common d) as [c|] eqn:E.
    + apply A; [eapply picks_in; eassumption|unfold DatasetModel.common_attributes; rewrite E; exact Ia].
    + apply compute_common_in in Ia as [_ H]; [apply H; exact Io|exact W'].
  - intros m' E'; rewrite E' in M; destruct (cached d) as [m|] eqn:E; [|contradiction].
    specialize (L m E); unfold DatasetModel.common_attributes in *; rewrite C.
    destruct (common d) as [c|] eqn:Ec; [|exfalso; apply ST; [discriminate|reflexivity]].
    eapply picks_forall2; eassumption.
  - intros _ H; rewrite C; apply ST; destruct (cached d); [discriminate|].
    destruct (cached d'); [contradiction|congruence].
Qed.

Lemma slice_restricted : forall d b e s, aligned d -> s <> Some 0%Z ->
  exists ps d', slice_positions (length (objects d)) b e s = Ok ps
    /\ pick_from_slice Obj V d b e s = Ok d' /\ restricted ps d d'.
Proof.
  intros d b e s A S0.
  assert (exists ps, slice_positions (length (objects d)) b e s = Ok ps) as (ps & E).
  { unfold slice_positions; destruct (match s with Some s0 => s0 | None => 1%Z end =? 0)%Z eqn:E0.
    - destruct s as [z|]; [apply Z.eqb_eq in E0; congruence|discriminate].
    - destruct (0 <? _)%Z; eexists; reflexivity. }
  exists ps; unfold pick_from_slice; rewrite E; simpl.
  destruct (cached d) as [m|] eqn:Em.
  - rewrite (aligned_length d m A Em), E; simpl; eexists; split; [reflexivity|split; [reflexivity|]].
    unfold restricted; simpl; rewrite Em; repeat split.
    + apply take_picks; intros p; eapply slice_in; exact E.
    + apply take_picks; intros p I; rewrite (aligned_length d m A Em); eapply slice_in; eassumption.
  - simpl; eexists; split; [reflexivity|split; [reflexivity|]].
    unfold restricted; simpl; rewrite Em; repeat split.
    apply take_picks; intros p; eapply slice_in; exact E.
Qed.

Lemma getitem_restricted : forall d k d', aligned d -> objects d <> [] -> getitem d k = Ok (IDataset d') ->
  (k = KBools [] \/ k = KInts []) /\ objects d' = [] /\ cached d' = None /\ common d' = None
  \/ exists ps, restricted ps d d'.
Proof.
  intros d k d' A NE; unfold DatasetModel.getitem.
  destruct (objects d) as [|o0 l0] eqn:EO; [contradiction|rewrite <- EO in *; clear NE].
  destruct k as [z|b e s|[|b l]|[|z l]| |].
  - destruct (py_get _ _); discriminate.
  - assert ({s = Some 0%Z} + {s <> Some 0%Z}) as [ES|ES].
    { destruct s as [z|]; [|right; discriminate]; destruct (Z.eq_dec z 0) as [->|N]; [left; reflexivity|right; congruence]. }
    + subst s; discriminate.
    + destruct (slice_restricted d b e s A ES) as (ps & d1 & _ & E & R).
      rewrite E; simpl; intros H; injection H as <-; right; exists ps; exact R.
  - intros H; injection H as <-; left; repeat split; left; reflexivity.
  - destruct (Nat.eqb _ _) eqn:E; [|discriminate]; apply Nat.eqb_eq in E.
    intros H; injection H as <-; right; eexists; apply boolist_restricted; [exact A|exact E].
  - intros H; injection H as <-; left; repeat split; right; reflexivity.
  - destruct (indexlist_to_booleanlist Obj V d (z :: l)) as [mask|] eqn:E; [|discriminate]; simpl; intros H; injection H as <-.
    unfold indexlist_to_booleanlist in E; apply marks_spec in E as [L _]; rewrite map_length in L.
    right; eexists; apply boolist_restricted; assumption.
  - discriminate.
  - discriminate.
Qed.

(** *** Concatenation *)
Lemma forallb_incl : forall l m, forallb (fun a => memb String.eqb a m) l = true <-> incl l m.
Proof.
  intros l m; rewrite forallb_forall; split; intros H a I.
  - apply (memb_In String.eqb string_eqb_iff); apply H; exact I.
  - apply (memb_In String.eqb string_eqb_iff); apply H; exact I.
Qed.

(** the order of the common attributes is that of the first object *)
Lemma dedup_app : forall l1 l2 seen, (forall a, In a l2 -> In a l1 \/ In a seen) ->
  dedup String.eqb seen (l1 ++ l2) = dedup String.eqb seen l1.
Proof.
  induction l1 as [|x l1 IH]; intros l2 seen H; simpl.
  - assert (forall a, In a l2 -> In a seen) as K by (intros a I; destruct (H a I) as [[]|I']; exact I'); clear H.
    induction l2 as [|y l2 IH2]; simpl; [reflexivity|].
    rewrite (proj2 (memb_In String.eqb string_eqb_iff y seen) (K y (or_introl eq_refl))).
    apply IH2; intros a I; apply K; right; exact I.
  - destruct (memb String.eqb x seen) eqn:E.
    + apply IH; intros a I; destruct (H a I) as [[<-|I']|I']; [right|left|right]; try assumption.
      apply (memb_In String.eqb string_eqb_iff); exact E.
    + f_equal; apply IH; intros a I; destruct (H a I) as [[<-|I']|I'].
      * right; left; reflexivity.
      * left; exact I'.
      * right; right; exact I'.
Qed.
Lemma compute_common_first : forall x l, well_described (x :: l) ->
  compute_common (x :: l)
  = dedup String.eqb [] (filter (fun a => forallb (fun o => memb String.eqb a (vector_features o)) (x :: l)) (vector_features x)).
Proof.
  intros x l W; unfold DatasetModel.compute_common; set (l0 := x :: l) in *.
  assert (exists rest, one_instance Obj cls [] l0 = x :: rest) as (rest & E) by (eexists; reflexivity).
  set (P := fun a => forallb (fun o => memb String.eqb a (vector_features o)) (one_instance Obj cls [] l0)).
  assert (forall a, P a = forallb (fun o => memb String.eqb a (vector_features o)) l0) as EP.
  { intros a; unfold P; apply eq_true_iff_eq; rewrite !forallb_forall; split; intros H o I.
    - destruct (one_instance_all l0 [] o I) as [[]|(o' & I' & C)].
      rewrite <- (proj2 W o' o (one_instance_in _ _ _ I') I C); apply H; exact I'.
    - apply H; eapply one_instance_in; exact I. }
  rewrite (filter_ext _ _ EP).
  fold l0; rewrite E at 1; cbn [flat_map]; rewrite filter_app.
  apply dedup_app; intros a I; left; apply filter_In in I as [_ F]; apply filter_In; split; [|exact F].
  rewrite forallb_forall in F; apply (memb_In String.eqb string_eqb_iff); apply F; left; reflexivity.
Qed.
Lemma compute_common_app : forall l l', well_described (l ++ l') -> compute_common l = compute_common l' ->
  compute_common (l ++ l') = compute_common l.
Proof.
  intros [|x l] l' W E; [simpl in *; congruence|].
  assert (well_described (x :: l)) as W1
    by (destruct W as [Wa Wb]; split; intros; [apply Wa|apply Wb]; try assumption; apply in_or_app; left; assumption).
  assert (well_described l') as W2
    by (destruct W as [Wa Wb]; split; intros; [apply Wa|apply Wb]; try assumption; apply in_or_app; right; assumption).
  change ((x :: l) ++ l') with (x :: (l ++ l')) in *.
  rewrite (compute_common_first x (l ++ l') W), (compute_common_first x l W1); f_equal.
  apply filter_ext_in; intros a Ia.
  change (x :: l ++ l') with ((x :: l) ++ l'); rewrite forallb_app.
  destruct (forallb (fun o => memb String.eqb a (vector_features o)) (x :: l)) eqn:F; [|reflexivity]; simpl.
  assert (In a (compute_common (x :: l))) as I.
  { apply compute_common_in; [exact W1|split; [discriminate|]]; intros o Io; rewrite forallb_forall in F.
    apply (memb_In String.eqb string_eqb_iff); apply F; exact Io. }
  rewrite E in I; apply compute_common_in in I as [_ I]; [|exact W2].
  apply forallb_forall; intros o Io; apply (memb_In String.eqb string_eqb_iff); apply I; exact Io.
Qed.

(** *** Values *)
Variable getattr : Obj -> string -> option V.
Variable argsort : list V -> list nat.
Lemma Forall2_compose : forall A B C (R : A -> B -> Prop) (R' : B -> C -> Prop) (Q : A -> C -> Prop) l m n,
  Forall2 R l m -> Forall2 R' m n -> (forall a b c, R a b -> R' b c -> Q a c) -> Forall2 Q l n.
Proof.
  intros A B C R R' Q l m n F; revert n; induction F as [|a b l m Hab F IH]; intros n G H; inversion G; subst; constructor; eauto.
Qed.

Lemma column_values_spec : forall d z vs d', sound d -> well_described (objects d) ->
  column_values Obj V cls vector_features to_vector d z = Ok (vs, d') ->
  objects d' = objects d /\ common_attributes d' = common_attributes d /\ sound d' /\ plain _ _ d' = plain _ _ d /\ cached d' <> None
  /\ Forall2 (fun o v => exists p a, designates (length (common_attributes d)) z p /\ nth_error (common_attributes d) p = Some a /\ reads o a v) (objects d) vs.
Proof.
  intros d z vs d' S W; unfold column_values.
  destruct (matrix_sound d S W) as (m & d1 & -> & EO & EC & EP & ECa & F & S1); simpl.
  destruct (mapM (fun row => py_get row z) m) as [vs'|] eqn:E; [|discriminate]; simpl; intros H; injection H as <- <-.
  split; [exact EO|split; [exact EC|split; [exact S1|split; [exact EP|split; [congruence|]]]]].
  apply mapM_ok_inv in E; eapply Forall2_compose; [exact F|exact E|]; cbv beta.
  intros o row v R G; apply py_get_ok in G as (p & Ep & Ev).
  rewrite <- (Forall2_len _ _ _ _ _ R) in Ep; apply py_index_designates in Ep.
  destruct (nth_error (common_attributes d) p) as [a|] eqn:Ea.
  - exists p, a; split; [exact Ep|split; [exact Ea|]].
    clear - R Ea Ev; revert p Ea Ev; induction R as [|x y l m Hxy R IH]; intros [|p] Ea Ev; simpl in *; try discriminate.
    + injection Ea as <-; injection Ev as <-; exact Hxy.
    + eapply IH; eassumption.
  - exfalso; apply nth_error_None in Ea; destruct Ep; lia.
Qed.
Lemma column_values_total : forall d z p, sound d -> well_described (objects d) -> designates (length (common_attributes d)) z p ->
  exists vs d', column_values Obj V cls vector_features to_vector d z = Ok (vs, d').
Proof.
  intros d z p S W D; unfold column_values.
  destruct (matrix_sound d S W) as (m & d1 & -> & EO & EC & EP & ECa & F & S1); simpl.
  assert (exists vs, mapM (fun row => py_get row z) m = Ok vs) as (vs & ->); [|eexists; eexists; reflexivity].
  clear - F D; induction F as [|o row l m R F IH]; simpl; [eexists; reflexivity|].
  unfold py_get at 1; rewrite <- (Forall2_len _ _ _ _ _ R).
  rewrite (proj2 (py_index_designates _ _ _) D).
  destruct (nth_error row p) as [v|] eqn:E; [|apply nth_error_None in E; rewrite <- (Forall2_len _ _ _ _ _ R) in E; destruct D; lia].
  destruct IH as (vs & ->); simpl; eexists; reflexivity.
Qed.

Lemma attribute_values_spec : forall d a vs d', sound d -> well_described (objects d) ->
  attribute_values Obj V cls vector_features to_vector getattr d a = Ok (vs, d') ->
  objects d' = objects d /\ common_attributes d' = common_attributes d /\ sound d' /\ plain _ _ d' = plain _ _ d
  /\ Forall2 (key_value vector_features to_vector cls getattr d (SStr a)) (objects d) vs.
Proof.
  intros d a vs d' S W; unfold attribute_values.
  destruct (objects d) as [|o0 l0] eqn:EO; [discriminate|rewrite <- EO in *].
  destruct (getattr o0 a) as [v0|] eqn:E0.
  - destruct (mapM _ (objects d)) as [vs'|] eqn:E; [|discriminate]; simpl; intros H; injection H as <- <-.
    split; [reflexivity|split; [reflexivity|split; [exact S|split; [reflexivity|]]]].
    apply mapM_ok_inv in E; eapply Forall2_impl; [|exact E]; cbv beta; intros o v.
    destruct (getattr o a) eqn:Eo; [|discriminate]; intros H; injection H as <-; left; exact Eo.
  - destruct (index_of String.eqb a (common_attributes d)) as [i|] eqn:Ei; [|discriminate]; intros H.
    destruct (column_values_spec d _ vs d' S W H) as (HO & HC & HS & HP & _ & HF).
    split; [exact HO|split; [exact HC|split; [exact HS|split; [exact HP|]]]].
    eapply Forall2_impl; [|exact HF]; cbv beta; intros o v (p & a' & D & Ea & R); right.
    destruct (index_of_Some String.eqb string_eqb_iff _ _ _ Ei) as [Ea' Li].
    assert (p = i) as -> by (destruct D as [? [D|D]]; lia).
    rewrite Ea' in Ea; injection Ea as <-.
    split; [exists o0; split; [rewrite EO; reflexivity|exact E0]|split; [eapply nth_error_In; exact Ea'|exact R]].
Qed.

(** *** Sorting *)
Lemma take_length : forall A (l : list A) ps, (forall p, In p ps -> p < length l) -> length (take l ps) = length ps.
Proof. intros A l ps H; symmetry; apply (Forall2_len _ _ _ _ _ (take_picks A ps l H)). Qed.
Lemma picks_fun : forall A ps (l l' l'' : list A), picks ps l l' -> picks ps l l'' -> l' = l''.
Proof. intros A ps l l' l'' P; revert l''; induction P as [|p x ps l' Hp P IH]; intros l'' Q; inversion Q as [|? ? ? ? H1 H2]; subst; [reflexivity|]. f_equal; [congruence|apply IH; exact H2]. Qed.
Lemma sorted_app : forall A (R : A -> A -> Prop) l x, StronglySorted R l -> Forall (fun y => R y x) l -> StronglySorted R (l ++ [x]).
Proof.
  intros A R; induction l as [|y l IH]; intros x S F; simpl; [constructor; constructor|].
  inversion S as [|? ? S' F']; subst; inversion F as [|? ? F1 F2]; subst; constructor; [apply IH; assumption|].
  apply Forall_app; split; [exact F'|constructor; [exact F1|constructor]].
Qed.
Lemma sorted_rev : forall A (R : A -> A -> Prop) l, StronglySorted R l -> StronglySorted (fun x y => R y x) (rev l).
Proof.
  intros A R l S; induction S as [|x l S IH F]; simpl; [constructor|].
  apply sorted_app; [exact IH|]; apply Forall_rev; exact F.
Qed.
Lemma picks_rev : forall A ps (l l' : list A), picks ps l l' -> picks (rev ps) l (rev l').
Proof.
  intros A ps l l' P; induction P as [|p x ps l' Hp P IH]; simpl; [constructor|].
  apply Forall2_app; [exact IH|constructor; [exact Hp|constructor]].
Qed.

Lemma sort_spec : forall (le : V -> V -> Prop) d k ascend d', argsort_spec argsort le -> sound d -> well_described (objects d) ->
  objects d <> [] -> sort Obj V cls vector_features to_vector getattr argsort d k ascend = Ok d' ->
  exists ps vs, Permutation ps (seq 0 (length (objects d))) /\ picks ps (objects d) (objects d')
    /\ sound d' /\ (forall a, In a (common_attributes d') <-> In a (common_attributes d))
    /\ plain _ _ d' = plain _ _ d
    /\ Forall2 (key_value vector_features to_vector cls getattr d k) (objects d') vs
    /\ StronglySorted (if ascend then le else fun x y => le y x) vs.
Proof.
  intros le d k ascend d' AS S W NE; unfold sort.
  destruct (objects d) as [|o0 l0] eqn:EO; [contradiction|rewrite <- EO in *].
  set (values := match k with SInt z => _ | SStr a => _ | SOther => _ end).
  destruct values as [[vs d1]|e] eqn:EV; [|discriminate]; simpl.
  assert (objects d1 = objects d /\ common_attributes d1 = common_attributes d /\ sound d1 /\ plain _ _ d1 = plain _ _ d
          /\ Forall2 (key_value vector_features to_vector cls getattr d k) (objects d) vs) as (HO & HC & HS & HP & HF).
  { subst values; destruct k as [z|a|]; [| |discriminate].
    - destruct (column_values_spec d z vs d1 S W EV) as (? & ? & ? & ? & _ & ?); auto.
    - apply attribute_values_spec; assumption. }
  destruct (AS vs) as [PS SS]; rewrite <- (Forall2_len _ _ _ _ _ HF) in PS.
  set (ps := if ascend then argsort vs else rev (argsort vs)).
  assert (Permutation ps (seq 0 (length (objects d)))) as PP.
  { unfold ps; destruct ascend; [exact PS|]; rewrite <- PS; symmetry; apply Permutation_rev. }
  assert (forall p, In p ps -> p < length (objects d)) as PB.
  { intros p I; eapply Permutation_in in I; [|exact PP]; apply in_seq in I; lia. }
  intros H; injection H as <-.
  exists ps, (take vs ps).
  assert (picks ps vs (take vs ps)) as PV.
  { apply take_picks; intros p I; rewrite <- (Forall2_len _ _ _ _ _ HF); apply PB; exact I. }
  assert (restricted ps d1 {| plain := plain Obj V d1; DatasetModel.objects := take (objects d1) ps; DatasetModel.common := common d1;
            DatasetModel.cached := match cached d1 with Some m => Some (take m ps) | None => None end |}) as R.
  { unfold restricted; simpl; repeat split.
    - apply take_picks; rewrite HO; exact PB.
    - destruct (cached d1) as [m|] eqn:Em; [|exact Logic.I].
      apply take_picks; rewrite (aligned_length d1 m (proj1 (proj2 HS)) Em), HO; exact PB. }
  split; [exact PP|split; [|split; [|split; [|split; [exact HP|split]]]]].
  - simpl; rewrite HO; apply take_picks; exact PB.
  - eapply restricted_sound; [exact HS|rewrite HO; exact W|exact R|rewrite HO; exact NE].
  - unfold DatasetModel.common_attributes in *; simpl.
    destruct (common d1) as [c|] eqn:Ec; [rewrite HC; tauto|].
    assert (Permutation (take (objects d1) ps) (objects d1)) as P1.
    { apply (picks_permutation _ _ _ ps); [rewrite HO; exact PP|apply take_picks; rewrite HO; exact PB]. }
    assert (well_described (objects d1)) as W1 by (rewrite HO; exact W).
    assert (well_described (take (objects d1) ps)) as W2
      by (destruct W1 as [Wa Wb]; split; intros; [apply Wa|apply Wb]; try assumption; eapply Permutation_in; eassumption).
    intros a; rewrite <- HC, !compute_common_in by assumption; split; intros [N I]; split.
    + intros E; apply N; apply Permutation_nil; rewrite <- E; symmetry; exact P1.
    + intros o Io; apply I; eapply Permutation_in; [symmetry; exact P1|exact Io].
    + intros E; apply N; apply Permutation_nil; rewrite <- E; exact P1.
    + intros o Io; apply I; eapply Permutation_in; [exact P1|exact Io].
  - simpl; rewrite HO; eapply picks_forall2; [exact HF|apply take_picks; exact PB|exact PV].
  - unfold ps in PV |- *; destruct ascend; [apply SS; exact PV|].
    assert (picks (argsort vs) vs (take vs (argsort vs))) as PA.
    { apply take_picks; intros p I; rewrite <- (Forall2_len _ _ _ _ _ HF); apply PB; unfold ps.
      apply -> in_rev; exact I. }
    rewrite (picks_fun _ _ _ _ _ PV (picks_rev _ _ _ _ PA)).
    apply sorted_rev; apply SS; exact PA.
Qed.
(** *** Costs *)
Lemma zip_rows : forall (KV : string -> Obj -> V -> Prop) (names : list string) objs cs,
  Forall2 (fun a c => Forall2 (KV a) objs c) names cs ->
  Forall2 (fun o row => Forall2 (fun a v => KV a o v) names row) objs (zip_columns V (length objs) cs).
Proof.
  intros KV names; induction objs as [|o objs IH]; intros cs F; simpl; constructor.
  - clear IH; induction F as [|a c names cs H F IH]; simpl; [constructor|].
    inversion H as [|? v ? c' Hv Hc]; subst; simpl; constructor; [exact Hv|exact IH].
  - apply IH; clear IH; induction F as [|a c names cs H F IH]; simpl; constructor; [|exact IH].
    inversion H as [|? v ? c' Hv Hc]; subst; simpl; exact Hc.
Qed.
Lemma columns_spec : forall names d cs d', sound d -> well_described (objects d) ->
  columns Obj V cls vector_features to_vector getattr d names = Ok (cs, d') ->
  objects d' = objects d /\
  Forall2 (fun a c => Forall2 (key_value vector_features to_vector cls getattr d (SStr a)) (objects d) c) names cs.
Proof.
  induction names as [|a names IH]; intros d cs d' S W; simpl.
  - intros H; injection H as <- <-; split; [reflexivity|constructor].
  - destruct (attribute_values Obj V cls vector_features to_vector getattr d a) as [[c d1]|] eqn:E; [|discriminate]; simpl.
    destruct (attribute_values_spec d a c d1 S W E) as (HO & HC & HS & _ & HF).
    destruct (columns Obj V cls vector_features to_vector getattr d1 names) as [[cs1 d2]|] eqn:E2; [|discriminate]; simpl.
    intros H; injection H as <- <-.
    destruct (IH d1 cs1 d2 HS) as [IO IF]; [rewrite HO; exact W|exact E2|].
    split; [rewrite IO; exact HO|constructor; [exact HF|]].
    eapply Forall2_impl; [|exact IF]; cbv beta; intros a' c'; rewrite HO; apply Forall2_impl.
    intros o v; unfold key_value; rewrite HO, HC; tauto.
Qed.
Lemma compute_costs_spec : forall names d costs, sound d -> well_described (objects d) -> names <> [] ->
  compute_costs Obj V cls vector_features to_vector getattr d names = Ok costs ->
  Forall2 (fun o row => Forall2 (fun a v => key_value vector_features to_vector cls getattr d (SStr a) o v) names row) (objects d) costs.
Proof.
  intros names d costs S W NE; unfold compute_costs, sub_matrix.
  destruct (columns Obj V cls vector_features to_vector getattr d names) as [[cs d']|] eqn:E; [|discriminate]; simpl.
  destruct (columns_spec names d cs d' S W E) as [HO HF].
  assert (zip_all V cs = zip_columns V (length (objects d)) cs) as EZ.
  { destruct HF as [|a c names cs HC HF]; [contradiction|]; simpl.
    assert (fold_right (fun c n => Nat.min (length c) n) (length c) cs = length (objects d)) as ->; [|reflexivity].
    rewrite <- (Forall2_len _ _ _ _ _ HC).
    clear - HF; induction HF as [|a c names cs H F IH]; simpl; [reflexivity|].
    rewrite IH, <- (Forall2_len _ _ _ _ _ H); apply Nat.min_id. }
  rewrite EZ.
  pose proof (zip_rows (fun a => key_value vector_features to_vector cls getattr d (SStr a)) names (objects d) cs HF) as Z.
  unfold check_costs; rewrite HO, <- (Forall2_len _ _ _ _ _ Z), Nat.eqb_refl.
  intros H; injection H as <-; exact Z.
Qed.
End Data.

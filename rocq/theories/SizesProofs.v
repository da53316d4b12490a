(** Proofs about the memory footprint of objects. *)
From Coq Require Import List Bool Arith Lia Permutation.
From Verif Require Import Base SizesModel SizesSpec.
Import ListNotations.
Local Open Scope list_scope.

Lemma memb_in x l : memb Nat.eqb x l = true <-> In x l.
Proof. unfold memb. rewrite existsb_exists. split; [intros (y & I & E); apply Nat.eqb_eq in E; subst; auto|intros I; exists x; rewrite Nat.eqb_refl; auto]. Qed.
Lemma total_app h l m : total h (l ++ m) = total h l + total h m.
Proof. induction l as [|x l IH]; cbn [app total]; [reflexivity|]. rewrite IH. lia. Qed.
Lemma reaches_trans h x y z : reaches h x y -> reaches h y z -> reaches h x z.
Proof. induction 1; intros; [auto|]. eapply reaches_on; eauto. Qed.

Section Visit.
Variable h : heap.
Hypothesis W : closed h.
Definition good (ids : list nat) : Prop := NoDup ids /\ forall y, In y ids -> y < List.length h.
Lemma good_length ids : good ids -> List.length ids <= List.length h.
Proof.
  intros [N B]. rewrite <- (seq_length (List.length h) 0). apply NoDup_incl_length; [auto|]. intros y I. apply in_seq. specialize (B y I). lia.
Qed.
Definition outcome (xs ids : list nat) (r : res (nat * list nat)) : Prop :=
  match r with
  | Ok (s, ids') => exists new, ids' = new ++ ids /\ good ids' /\ s = total h new /\ (forall x, In x xs -> In x ids') /\
      (forall y, In y new -> exists x, In x xs /\ reaches h x y) /\ (forall y z, In y new -> holds h y z -> In z ids') /\ (forall y, In y new -> ~ no_dict h y)
  | Err e => e = AttributeError /\ exists x y, In x xs /\ reaches h x y /\ no_dict h y
  end.
Lemma sum_outcome (visit : list nat -> nat -> res (nat * list nat)) c : (forall ids x, good ids -> x < List.length h -> c <= List.length ids -> outcome [x] ids (visit ids x)) ->
  forall l ids, good ids -> (forall x, In x l -> x < List.length h) -> c <= List.length ids -> outcome l ids (sum_visits visit ids l).
Proof.
  intros V l. induction l as [|x l IH]; intros ids G B C.
  - exists []. repeat split; try apply G; try (intros; cbn in *; tauto).
  - cbn [sum_visits]. assert (H := V ids x G (B x (or_introl eq_refl)) C). destruct (visit ids x) as [[s ids1]|e]; cbn [bind fst snd].
    + destruct H as (new & -> & G1 & -> & I1 & R1 & H1 & D1). assert (C1 : c <= List.length (new ++ ids)) by (rewrite app_length; lia).
      assert (K := IH (new ++ ids) G1 (fun y I => B y (or_intror I)) C1). destruct (sum_visits visit (new ++ ids) l) as [[s2 ids2]|e]; cbn [bind fst snd].
      * destruct K as (new2 & -> & G2 & -> & I2 & R2 & H2 & D2). exists (new2 ++ new). rewrite <- app_assoc. split; [auto|]. split; [auto|]. split; [rewrite total_app; lia|]. repeat split.
        -- intros y [<-|I]; [apply in_or_app; right; apply I1; left; auto|auto].
        -- intros y I. apply in_app_or in I. destruct I as [I|I]; [destruct (R2 y I) as (z & Z & R); exists z; split; [right|]; auto|].
           destruct (R1 y I) as (z & [<-|[]] & R). exists x. split; [left|]; auto.
        -- intros y z I Z. apply in_app_or in I. destruct I as [I|I]; [eauto|]. apply in_or_app. right. eauto.
        -- intros y I. apply in_app_or in I. destruct I as [I|I]; auto.
      * destruct K as (-> & z & y & Z & R & N). split; [auto|]. exists z, y. split; [right|]; auto.
    + destruct H as (-> & z & y & [<-|[]] & R & N). split; [auto|]. exists x, y. split; [left|]; auto.
Qed.
Lemma in_flat y items : In y (flat_items items) <-> exists k v, In (k, v) items /\ (y = k \/ y = v).
Proof.
  unfold flat_items. rewrite in_flat_map. split.
  - intros ([k v] & I & [<-|[<-|[]]]); exists k, v; auto.
  - intros (k & v & I & [->| ->]); exists (k, v); cbn; auto.
Qed.
Lemma visit_outcome n : forall ids x, good ids -> x < List.length h -> List.length h - List.length ids < n -> outcome [x] ids (deep_getsizeof n h ids x).
Proof.
  induction n as [|n IH]; intros ids x G B L; [lia|]. cbn [deep_getsizeof]. destruct (memb Nat.eqb x ids) eqn:M.
  - apply memb_in in M. exists []. repeat split; try apply G; try (intros; cbn in *; tauto). intros y [<-|[]]. auto.
  - destruct (nth_error h x) as [o|] eqn:E; [|apply nth_error_None in E; lia].
    assert (NI : ~ In x ids) by (intros I; apply memb_in in I; congruence).
    assert (G1 : good (x :: ids)). { destruct G as [N D]. split; [constructor; auto|]. intros y [<-|I]; auto. }
    assert (L1 := good_length _ G1). cbn [List.length] in L1.
    assert (SIM : ~ no_dict h x -> (forall z, ~ holds h x z) -> outcome [x] ids (Ok (size o, x :: ids))).
    { intros D N. exists [x]. split; [reflexivity|]. split; [auto|]. split; [cbn [total]; rewrite E; lia|]. repeat split.
      - intros y [<-|[]]. left. auto.
      - intros y [<-|[]]. exists x. split; [left; auto|constructor].
      - intros y z [<-|[]] Z. exfalso. apply (N z Z).
      - intros y [<-|[]]. auto. }
    assert (ALL : forall l, ~ no_dict h x -> (forall z, In z l <-> holds h x z) ->
      outcome [x] ids (let* s := sum_visits (deep_getsizeof n h) (x :: ids) l in Ok (size o + fst s, snd s))).
    { intros l D HL. assert (K := sum_outcome (deep_getsizeof n h) (S (List.length ids))). specialize (K (fun ids x G B C => IH ids x G B ltac:(lia)) l (x :: ids) G1).
      assert (Bl : forall y, In y l -> y < List.length h). { intros y I. apply (W x). apply HL. auto. }
      specialize (K Bl (le_n _)). destruct (sum_visits (deep_getsizeof n h) (x :: ids) l) as [[s ids1]|e]; cbn [bind fst snd].
      - destruct K as (new & -> & G2 & -> & I2 & R2 & H2 & D2). exists (new ++ [x]). rewrite <- app_assoc. split; [reflexivity|]. split; [auto|].
        split; [rewrite total_app; cbn [total]; rewrite E; lia|]. repeat split.
        + intros y [<-|[]]. apply in_or_app. right. left. auto.
        + intros y I. exists x. split; [left; auto|]. apply in_app_or in I. destruct I as [I|[<-|[]]]; [|constructor]. destruct (R2 y I) as (z & Z & R). apply (reaches_on h x z); [apply HL|]; auto.
        + intros y z I Z. apply in_app_or in I. destruct I as [I|[<-|[]]]; [eauto|]. apply I2. apply HL. auto.
        + intros y I. apply in_app_or in I. destruct I as [I|[<-|[]]]; auto.
      - destruct K as (-> & z & y & Z & R & N). split; [auto|]. exists x, y. split; [left; auto|]. split; [|auto]. apply (reaches_on h x z); [apply HL|]; auto. }
    assert (ND : knd o <> Cont None -> ~ no_dict h x). { intros D (s & F). rewrite E in F. injection F as ->. apply D. reflexivity. }
    destruct o as [sz [|items|[l|]|at_]] eqn:O; cbn [knd size] in *; rewrite ?O in *.
    + apply SIM; [apply ND; discriminate|]. intros z (o' & F & Z). rewrite E in F. injection F as <-. exact Z.
    + apply ALL; [apply ND; discriminate|]. intros z. rewrite in_flat. unfold holds. split; [intros Z; eexists; split; [exact E|exact Z]|]. intros (o' & F & Z). rewrite E in F. injection F as <-. exact Z.
    + apply ALL; [apply ND; discriminate|]. intros z. unfold holds. split; [intros Z; eexists; split; [exact E|exact Z]|]. intros (o' & F & Z). rewrite E in F. injection F as <-. exact Z.
    + split; [auto|]. exists x, x. split; [left; auto|]. split; [constructor|]. exists sz. exact E.
    + apply SIM; [apply ND; discriminate|]. intros z (o' & F & Z). rewrite E in F. injection F as <-. exact Z.
Qed.
Lemma sizeof_spec x : x < List.length h ->
  (exists l, sizeof h x = Ok (total h l) /\ NoDup l /\ (forall y, In y l <-> reaches h x y) /\ forall y, reaches h x y -> ~ no_dict h y) \/
  (sizeof h x = Err AttributeError /\ exists y, reaches h x y /\ no_dict h y).
Proof.
  intros B. assert (G : good []). { split; [constructor|]. intros y []. }
  assert (K := visit_outcome (S (List.length h)) [] x G B ltac:(cbn; lia)). unfold sizeof. destruct (deep_getsizeof _ h [] x) as [[s ids]|e]; cbn [bind fst].
  - destruct K as (new & -> & [N _] & -> & I & R & H & D). rewrite app_nil_r in *. left. exists new. split; [auto|]. split; [auto|].
    assert (RI : forall z y, reaches h z y -> In z new -> In y new). { induction 1; auto. intros. apply IHreaches. eauto. }
    assert (IFF : forall y, In y new <-> reaches h x y).
    { intros y. split; [intros Y; destruct (R y Y) as (z & [<-|[]] & Z); auto|]. intros Z. apply (RI x y Z). apply I. left. auto. }
    split; [auto|]. intros y Y. apply D. apply IFF. auto.
  - destruct K as (-> & z & y & [<-|[]] & R & ND). right. split; [auto|]. exists y. auto.
Qed.
End Visit.

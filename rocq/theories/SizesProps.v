(** C71: the memory footprint of objects. *)
From Coq Require Import List String Bool Arith Lia ZArith QArith Permutation.
From Verif Require Import Base SizesModel SizesSpec SizesProofs.
Import ListNotations.
Local Open Scope nat_scope.
Local Open Scope list_scope.

Lemma total_perm h l m : Permutation l m -> total h l = total h m.
Proof. induction 1; cbn [total]; try lia. Qed.

(** The size of an object is the sum of the sizes of the objects that are reached through mappings and through
    containers with attributes, itself included, each counted once however often it is found, cycles included. *)
Theorem C71_size h x : closed h -> x < List.length h -> (forall y, reaches h x y -> ~ no_dict h y) ->
  (exists l, NoDup l /\ forall y, In y l <-> reaches h x y) /\
  forall l, NoDup l -> (forall y, In y l <-> reaches h x y) -> sizeof h x = Ok (total h l).
Proof.
  intros W B D. destruct (sizeof_spec h W x B) as [(l & E & N & I & _)|(_ & y & R & ND)]; [|exfalso; apply (D y R ND)].
  split; [eauto|]. intros m Nm Im. rewrite E. f_equal. apply total_perm. apply NoDup_Permutation; auto. intros y. rewrite I, Im. tauto.
Qed.

(** AttributeError exactly when a list, a tuple or a set is reached. *)
Theorem C71_no_dict h x e : closed h -> x < List.length h ->
  (sizeof h x = Err e <-> e = AttributeError /\ exists y, reaches h x y /\ no_dict h y).
Proof.
  intros W B. destruct (sizeof_spec h W x B) as [(l & E & N & I & D)|(E & H)]; rewrite E; split.
  - discriminate.
  - intros (_ & y & R & ND). exfalso. apply (D y R ND).
  - intros F. injection F as <-. auto.
  - intros [-> _]. reflexivity.
Qed.

(** Expected of a memory footprint, and said by its docstring: the size of a list of lists can be found. *)
Theorem C71_list_refuted h x bd : no_dict h x -> sizeof h x = Err AttributeError /\ breakdown_analysis h bd x = Err AttributeError.
Proof.
  intros (s & E). assert (F : sizeof h x = Err AttributeError). { unfold sizeof. cbn [deep_getsizeof memb existsb]. rewrite E. reflexivity. }
  split; [auto|]. unfold breakdown_analysis. rewrite F. reflexivity.
Qed.

(** Expected of a memory footprint: the attributes of an object count.  Those of ordinary objects do not. *)
Theorem C71_attributes_refuted h x s attributes : nth_error h x = Some (Obj s (Plain attributes)) -> sizeof h x = Ok s.
Proof. intros E. unfold sizeof. cbn [deep_getsizeof memb existsb]. rewrite E. reflexivity. Qed.

(** A class is given the number of its objects, the size of the dictionary of its objects and of their paths, and
    their quotient; classes stay in order, and the analysis fails exactly when a size can not be found. *)
Theorem C71_analysis h bd x st : breakdown_analysis h bd x = Ok st ->
  sizeof h x = Ok (total_size st) /\ map fst (numbers st) = map fst bd /\ map fst (sizes st) = map fst bd /\ map fst (meansizes st) = map fst bd /\
  forall i c d, nth_error bd i = Some (c, d) -> exists s items n m,
    nth_error h d = Some (Obj s (Map items)) /\ sizeof h d = Ok n /\ nth_error (numbers st) i = Some (c, List.length items) /\ nth_error (sizes st) i = Some (c, n) /\
    nth_error (meansizes st) i = Some (c, m) /\ 0 < List.length items /\ (m * inject_Z (Z.of_nat (List.length items)) == inject_Z (Z.of_nat n))%Q.
Proof.
  unfold breakdown_analysis. destruct (sizeof h x) as [t|e]; cbn [bind]; [|discriminate]. destruct (mapM (class_stats h) bd) as [cs|e] eqn:M; cbn [bind]; [|discriminate].
  intros E. injection E as <-. cbn [total_size numbers sizes meansizes]. split; [reflexivity|]. revert cs M. induction bd as [|[c d] bd IH]; intros cs M; cbn [mapM] in M.
  - injection M as <-. repeat split. intros [|i] c d F; discriminate.
  - destruct (class_stats h (c, d)) as [r|e] eqn:C; cbn [bind] in M; [|discriminate]. destruct (mapM (class_stats h) bd) as [rs|e]; cbn [bind] in M; [|discriminate].
    injection M as <-. destruct (IH rs eq_refl) as (N1 & N2 & N3 & N4). clear IH. unfold class_stats in C. cbn [fst snd] in C. destruct (nth_error h d) as [[s [|items| |]]|] eqn:Hd; try discriminate.
    destruct (sizeof h d) as [n|e] eqn:Sd; cbn [bind] in C; [|discriminate]. destruct (Nat.eqb_spec (List.length items) 0) as [Z|Z]; [discriminate|]. injection C as <-.
    cbn [map fst snd]. rewrite N1, N2, N3. repeat split. intros [|i] c' d' F; [|apply (N4 i c' d' F)]. injection F as <- <-. exists s, items, n, (Qmake (Z.of_nat n) (Pos.of_nat (List.length items))).
    cbn [nth_error]. repeat split; auto; [lia|]. unfold Qeq, Qmult, inject_Z. cbn. rewrite Z.mul_1_r, Pos.mul_1_r. rewrite <- (positive_nat_Z (Pos.of_nat (List.length items))), Nat2Pos.id by lia. reflexivity.
Qed.
Theorem C71_analysis_total h bd x t : sizeof h x = Ok t ->
  (forall c d, In (c, d) bd -> exists s kv items n, nth_error h d = Some (Obj s (Map (kv :: items))) /\ sizeof h d = Ok n) ->
  exists st, breakdown_analysis h bd x = Ok st.
Proof.
  intros E H. unfold breakdown_analysis. rewrite E. cbn [bind]. assert (M : exists cs, mapM (class_stats h) bd = Ok cs).
  { clear E. induction bd as [|[c d] bd IH]; [eexists; reflexivity|]. destruct IH as [cs Ecs]; [intros; eapply H; right; eauto|]. destruct (H c d (or_introl eq_refl)) as (s & kv & items & n & Hd & Sd).
    eexists. cbn [mapM]. unfold class_stats at 1. cbn [fst snd]. rewrite Hd, Sd. cbn [bind List.length Nat.eqb]. rewrite Ecs. reflexivity. }
  destruct M as [cs ->]. eexists. reflexivity.
Qed.

(** A dictionary with itself as a value, one text as a key and as a value, and an object with a list as its attribute. *)
Definition example_heap : heap :=
  [Obj 64 (Map [(1, 0); (2, 1)]); Obj 50 Str; Obj 48 (Plain [3]); Obj 80 (Cont None); Obj 30 (Cont (Some [1; 3]));
   Obj 72 (Map [(2, 1)]); Obj 24 (Cont (Some [1; 6; 2]))].
Example C71_example :
  sizeof example_heap 0 = Ok (64 + 50 + 48) /\ sizeof example_heap 4 = Err AttributeError /\ sizeof example_heap 6 = Ok (24 + 50 + 48) /\
  breakdown_analysis example_heap [("Block"%string, 5)] 2 = Ok (Stats 48 [("Block"%string, 1)] [("Block"%string, 72 + 48 + 50)] [("Block"%string, (170 # 1)%Q)]).
Proof. repeat split. Qed.

(** Expected of an analysis: a class without objects counts for nothing.  It makes the analysis fail. *)
Theorem C71_no_objects_refuted h bd x t c d s bd' : sizeof h x = Ok t -> nth_error h d = Some (Obj s (Map [])) ->
  (forall c d, In (c, d) bd -> exists s kv items n, nth_error h d = Some (Obj s (Map (kv :: items))) /\ sizeof h d = Ok n) ->
  breakdown_analysis h (bd ++ (c, d) :: bd') x = Err ZeroDivisionError.
Proof.
  intros E D H. unfold breakdown_analysis. rewrite E. cbn [bind]. assert (M : mapM (class_stats h) (bd ++ (c, d) :: bd') = Err ZeroDivisionError); [|rewrite M; reflexivity].
  induction bd as [|[c' d'] bd IH]; cbn [app mapM].
  - unfold class_stats at 1. cbn [fst snd]. rewrite D. unfold sizeof. cbn [deep_getsizeof memb existsb]. rewrite D. reflexivity.
  - destruct (H c' d' (or_introl eq_refl)) as (s' & kv & items & n & Hd & Sd). unfold class_stats at 1. cbn [fst snd]. rewrite Hd, Sd. cbn [bind List.length Nat.eqb]. rewrite IH by (intros; apply (H c0 d0); right; auto). reflexivity.
Qed.
Print Assumptions C71_size.
Print Assumptions C71_no_dict.
Print Assumptions C71_list_refuted.
Print Assumptions C71_attributes_refuted.
Print Assumptions C71_analysis.
Print Assumptions C71_analysis_total.
Print Assumptions C71_no_objects_refuted.

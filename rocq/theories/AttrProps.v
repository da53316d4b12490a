(** Reading and writing attributes of objects while a workflow runs. *)
From Coq Require Import ZArith Bool String Ascii List Lia.
From Verif Require Import Base PathsModel PathsSpec PathsProofs AttrModel AttrSpec AttrProofs.
Import ListNotations.
Open Scope string_scope.
Open Scope list_scope.

(** A block that reads gives what the parts of its name lead to, if they lead somewhere. *)
Theorem C80_get : forall int_of h segs v w, good_segments segs ->
  get_block int_of h (String.concat "/" segs) v = Ok w <-> reaches int_of h v segs w.
Proof.
  intros int_of h segs v w G. unfold get_block. rewrite segments_good by auto. apply fold_reaches.
Qed.

(** If they stop somewhere, it raises what the object found there raises. *)
Theorem C80_get_error : forall int_of h pre s post v u e, good_segments (pre ++ s :: post) ->
  reaches int_of h v pre u -> (forall w, ~ part int_of h u s w) -> refuses int_of h u s e ->
  get_block int_of h (String.concat "/" (pre ++ s :: post)) v = Err e.
Proof.
  intros int_of h pre s post v u e G R N F. unfold get_block. rewrite segments_good by auto. clear G.
  induction R as [v|v s' w ss x P R IH]; cbn [app foldM].
  - rewrite (extract_refuses int_of h v s e) by auto. reflexivity.
  - apply extract_iff in P. rewrite P. cbn [bind]. apply IH; auto.
Qed.

(** A block that writes gives back the object it was given, with that attribute and no other
    thing changed, whether the object had the attribute or not; it takes instances only. *)
Theorem C80_set : forall h name v x,
  (forall a d, v = Ref a -> h a = Inst d -> exists h', set_block h name v x = Ok (h', v) /\ only_attribute h h' a name x)
  /\ ((forall a d, v = Ref a -> h a <> Inst d) -> set_block h name v x = Err AttributeError).
Proof.
  intros h name v x. split.
  - intros a d -> E. simpl. rewrite E. eexists. split; [reflexivity|].
    unfold only_attribute. split; [|split; [|split]].
    + unfold store. rewrite Nat.eqb_refl. eauto.
    + apply attribute_entry. unfold store. rewrite Nat.eqb_refl. eexists. split; eauto. rewrite entry_set, String.eqb_refl. reflexivity.
    + intros m u N. rewrite !attribute_entry. unfold store. rewrite Nat.eqb_refl. split.
      * intros (d' & [= <-] & H). rewrite entry_set in H. destruct (String.eqb_spec m name); [contradiction|]. eauto.
      * intros (d' & E' & H). rewrite E in E'. injection E' as <-. eexists. split; eauto.
        rewrite entry_set. destruct (String.eqb_spec m name); [contradiction|]. auto.
    + intros b N. unfold store. destruct (Nat.eqb_spec b a); [contradiction|auto].
  - intros H. destruct v as [n|a]; simpl; auto. destruct (h a) as [d|l|d] eqn:E; auto.
    exfalso. exact (H a d eq_refl E).
Qed.

(** An attribute whose name is not deep is read as it was written. *)
Theorem C80_get_after_set : forall int_of h name v x h' v', good_segments [name] ->
  set_block h name v x = Ok (h', v') -> get_block int_of h' name v' = Ok x.
Proof.
  intros int_of h name v x h' v' G S. pose proof (C80_get int_of h' [name] v' x G) as T. simpl in T. apply T.
  destruct v as [n|a]; simpl in S; [discriminate|]. destruct (h a) as [d|l|d] eqn:E; try discriminate.
  injection S as <- <-. econstructor; [|constructor].
  assert (attribute (store h a (Inst (set_entry name x d))) a name x) as (d1 & d2 & P & Q).
  { apply attribute_entry. unfold store. rewrite Nat.eqb_refl. eexists. split; eauto. rewrite entry_set, String.eqb_refl. reflexivity. }
  eapply PInst; eauto.
Qed.

(** A deep name: what is written is read by no block, whatever the name it is asked for; each
    block reads what it would have read before. *)
Theorem C80_deep_refuted : forall int_of h name v x h' v', deep name -> set_block h name v x = Ok (h', v') ->
  forall m w, get_block int_of h' m w = get_block int_of h m w.
Proof.
  intros int_of h name v x h' v' (p & q & ->) S m w. unfold get_block.
  apply (fold_agree int_of no_slash).
  - eapply set_agree; [|exact S]. unfold no_slash. intro N. apply N. clear.
    induction p as [|c p IH]; simpl; auto.
  - unfold segments. apply split_pieces.
Qed.

(** A run changes nothing but the attributes that its blocks set. *)
Theorem C80_frame : forall int_of bs h e h' e', run int_of bs h e = Ok (h', e') ->
  forall a, (forall n v, ~ sets bs n -> (attribute h' a n v <-> attribute h a n v))
  /\ ((forall d, h a <> Inst d) -> h' a = h a).
Proof.
  intros int_of bs h e h' e' R a.
  assert (agree (fun n => ~ sets bs n) h h') as A by (eapply run_agree; [|exact R]; auto).
  rewrite agree_inst in A. split.
  - intros n v N. rewrite !attribute_entry. destruct (A a) as [(d & d' & E & E' & H)|E].
    + rewrite E, E'. split; intros (d0 & [= <-] & K); eexists; (split; [reflexivity|]); [rewrite <- H|rewrite H]; auto.
    + rewrite E. tauto.
  - intro K. destruct (A a) as [(d & d' & E & _)|E]; [destruct (K d E)|exact E].
Qed.

(** Blocks that read do not change anything. *)
Theorem C80_reads_only : forall int_of bs h e h' e', (forall n, ~ sets bs n) -> run int_of bs h e = Ok (h', e') -> h' = h.
Proof.
  intros int_of bs. induction bs as [|b bs IH]; intros h e h' e' S; unfold run; simpl.
  - intros [= <- <-]. reflexivity.
  - destruct b as [name m out|name m x out].
    + simpl. destruct (value_of m e); simpl; [|discriminate]. destruct (get_block int_of h name v); simpl; [|discriminate].
      apply IH. intros n (m' & x & o & I). apply (S n). exists m', x, o. right. exact I.
    + exfalso. apply (S name). exists m, x, out. left. reflexivity.
Qed.

(** When no name read goes through a name that is set, running again on the same objects gives
    the same values. *)
Theorem C80_again : forall int_of bs h e h' e', reads_unset bs -> run int_of bs h e = Ok (h', e') ->
  exists h'', run int_of bs h' e = Ok (h'', e').
Proof.
  intros int_of bs h e h' e' U R.
  destruct (run_same int_of (fun n => ~ sets bs n) bs h h' e h' e') as (h'' & R' & _); eauto.
  - eapply run_agree; [|exact R]. auto.
  - intros name m o I. destruct (U name m o I) as (segs & G & -> & H).
    rewrite segments_good by auto. apply Forall_forall. exact H.
Qed.

(** Without that, the objects given by the user are changed by the run, and running the same
    workflow again on the same objects gives something else: read an attribute, then set it. *)
Theorem C80_again_refuted : forall int_of h name a d x y, good_segments [name] -> h a = Inst d ->
  attribute h a name y -> x <> y ->
  let bs := [Get name 0 2; Set_ name 0 1 3] in let e := [(0, Ref a); (1, x)] in
  exists h' h'' e' e'', run int_of bs h e = Ok (h', e') /\ run int_of bs h' e = Ok (h'', e'') /\
    attribute h' a name x /\ value_of 2 e' = Some y /\ value_of 2 e'' = Some x.
Proof.
  intros int_of h name a d x y G E At N bs e.
  apply attribute_entry in At. destruct At as (d' & E' & F). rewrite E in E'. injection E' as <-.
  assert (forall (k : heap) z dd, k a = Inst dd -> entry name dd = Some z -> get_block int_of k name (Ref a) = Ok z) as GG.
  { intros k z dd K L. pose proof (C80_get int_of k [name] (Ref a) z G) as T. simpl in T. apply T.
    apply entry_iff in L. destruct L as (d1 & d2 & -> & NI). econstructor; [eapply PInst; eauto|constructor]. }
  set (h' := store h a (Inst (set_entry name x d))).
  assert (h' a = Inst (set_entry name x d)) as E1 by (unfold h', store; rewrite Nat.eqb_refl; auto).
  assert (entry name (set_entry name x d) = Some x) as F1 by (rewrite entry_set, String.eqb_refl; auto).
  exists h', (store h' a (Inst (set_entry name x (set_entry name x d)))), [(3, Ref a); (2, y); (0, Ref a); (1, x)],
    [(3, Ref a); (2, x); (0, Ref a); (1, x)].
  split; [|split; [|split; [|split]]]; try reflexivity.
  - unfold run, bs, e. cbn [foldM eval_block value_of Nat.eqb of_option bind]. rewrite (GG h y d) by auto.
    cbn [foldM eval_block value_of Nat.eqb of_option bind set_block]. rewrite E. reflexivity.
  - unfold run, bs, e. cbn [foldM eval_block value_of Nat.eqb of_option bind]. rewrite (GG h' x _ E1 F1).
    cbn [foldM eval_block value_of Nat.eqb of_option bind set_block]. rewrite E1. reflexivity.
  - apply attribute_entry. eauto.
Qed.

(** An engine with a piston, and a list of both. *)
Definition ints (s : string) : option Z :=
  if String.eqb s "0" then Some 0%Z else if String.eqb s "-1" then Some (-1)%Z else None.
Definition garage : heap := fun a =>
  match a with
  | 0 => Inst [("piston", Ref 1); ("power", Atom 90)]
  | 1 => Inst [("bore", Atom 7)]
  | 2 => Seq [Ref 0; Ref 1]
  | _ => Dict [("engine", Ref 0)]
  end.
Example garage_get : get_block ints garage "piston/bore" (Ref 0) = Ok (Atom 7)
  /\ get_block ints garage "-1/bore" (Ref 2) = Ok (Atom 7)
  /\ get_block ints garage "engine/power" (Ref 3) = Ok (Atom 90)
  /\ get_block ints garage "bore" (Ref 0) = Err AttributeError
  /\ get_block ints garage "piston/bore/unit" (Ref 0) = Err AttributeError
  /\ get_block ints garage "(0,1)" (Ref 3) = Err KeyError
  /\ get_block ints garage "bore" (Ref 2) = Err ExtractionError.
Proof. repeat split. Qed.
Example garage_set : exists h, set_block garage "power" (Ref 0) (Atom 110) = Ok (h, Ref 0)
  /\ get_block ints h "0/power" (Ref 2) = Ok (Atom 110) /\ get_block ints h "piston/bore" (Ref 0) = Ok (Atom 7).
Proof. eexists. split; [reflexivity|]. split; reflexivity. Qed.
Example garage_deep : exists h, set_block garage "piston/bore" (Ref 0) (Atom 8) = Ok (h, Ref 0)
  /\ get_block ints h "piston/bore" (Ref 0) = Ok (Atom 7)
  /\ h 0 = Inst [("piston", Ref 1); ("power", Atom 90); ("piston/bore", Atom 8)].
Proof. eexists. split; [reflexivity|]. split; reflexivity. Qed.
Example garage_again : reads_unset [Get "piston/bore" 0 2; Set_ "power" 0 1 3].
Proof.
  intros name m o [[= <- <- <-]|[E|[]]]; [|discriminate]. exists ["piston"; "bore"]. split; [|split; [reflexivity|]].
  - split; [repeat constructor; intro H; simpl in H; intuition discriminate|].
    exists "p"%char, "iston", ["bore"]. split; [reflexivity|]. split; discriminate.
  - intros s [<-|[<-|[]]] (m & x & o & [E|[E|[]]]); discriminate.
Qed.

Print Assumptions C80_get.
Print Assumptions C80_get_error.
Print Assumptions C80_set.
Print Assumptions C80_get_after_set.
Print Assumptions C80_deep_refuted.
Print Assumptions C80_frame.
Print Assumptions C80_reads_only.
Print Assumptions C80_again.
Print Assumptions C80_again_refuted.

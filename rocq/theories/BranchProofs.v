(** Branches: what they contain, what their evaluation gives. *)
From Coq Require Import String Bool Arith Lia Permutation List.
From Verif Require Import Base BaseProofs ExecModel ExecSpec ExecStruct ExecRuntime ExecProofs ExecRun
  BranchModel BranchSpec.
Import ListNotations.

Section B.
Context {V : Type}.
Variable w : workflow.
Hypothesis WF : well_formed w.
Variable default : nat -> option V.
Variable lock_flag : nat -> bool.
Hypothesis LS : locks_sound default lock_flag.
Variable set_order : nat -> list nat -> list nat.
Hypothesis SO : forall b l, Permutation (set_order b l) l.

Notation upstream_blocks := (upstream_blocks w default lock_flag set_order).
Notation runtime_blocks := (runtime_blocks w default lock_flag set_order).
Notation scan := (scan w default lock_flag set_order).
Notation branch_loop := (branch_loop w default lock_flag set_order).
Notation branch_blocks := (branch_blocks w default lock_flag set_order).
Notation valid n := (n < List.length (blocks w)).

Lemma upstream_ok n : valid n -> exists us, upstream_blocks n = Ok us /\ forall m, In m us <-> feeds w m n.
Proof.
  intros L. destruct (nth_error (blocks w) n) as [b|] eqn:N; [|apply nth_error_None in N; lia].
  destruct (upstream_blocks_ok w WF default lock_flag LS set_order SO n b N) as [us [E [_ C]]]. eauto.
Qed.

Section Loop.
Variable condition : nat -> res bool.
Variable include_last : bool.
Variable C : nat -> Prop.
Hypothesis CO : forall n, valid n -> exists c, condition n = Ok c /\ (c = true <-> C n).

Notation taken x := (C x \/ include_last = true).

Lemma scan_ok ups : forall br cs,
  (forall u, In u ups -> valid u) ->
  exists br' cs', scan condition include_last ups br cs = Ok (br', cs')
    /\ (forall x, In x br' <-> In x br \/ (In x ups /\ taken x))
    /\ (forall x, In x cs' <-> In x cs \/ exists u, In u ups /\ C u /\ feeds w x u)
    /\ (exists l, br' = l ++ br).
Proof.
  induction ups as [|u ups IH]; intros br cs Hv.
  - exists br, cs. split; auto. split; [intros; simpl; tauto|]. split; [|exists []; auto].
    intros x; split; auto. intros [I|[u [[] _]]]; auto.
  - destruct (CO u) as [c [Ec Cc]]; [apply Hv; simpl; auto|]. cbn [BranchModel.scan]. rewrite Ec. cbn [bind].
    destruct c.
    + assert (Cu : C u) by (apply Cc; auto).
      destruct (upstream_ok u) as [us [Eu Cus]]; [apply Hv; simpl; auto|]. rewrite Eu. cbn [bind].
      destruct (IH (u :: br) (cs ++ us)) as [br' [cs' [E [B1 [B2 [l B3]]]]]]; [intros; apply Hv; simpl; auto|].
      exists br', cs'. split; auto. split; [|split].
      * intros x. rewrite B1. simpl. intuition (subst; auto).
      * intros x. rewrite B2, in_app_iff, Cus. split.
        -- intros [[I|F]|[z [I F]]]; auto; [right; exists u; simpl; auto|right; exists z; simpl; tauto].
        -- intros [I|[z [[<-|I] [Cz F]]]]; auto. right. exists z. auto.
      * exists (l ++ [u]). rewrite <- app_assoc. auto.
    + assert (NC : ~ C u) by (intros H; apply Cc in H; discriminate).
      destruct (IH (if include_last then u :: br else br) cs) as [br' [cs' [E [B1 [B2 [l B3]]]]]];
        [intros; apply Hv; simpl; auto|].
      exists br', cs'. split; auto. split; [|split].
      * intros x. rewrite B1. destruct include_last eqn:Il; simpl.
        -- intuition (subst; auto).
        -- split; [tauto|]. intros [I|[[<-|I] [T|T]]]; auto; solve [contradiction|discriminate].
      * intros x. rewrite B2. split.
        -- intros [I|[z [I F]]]; auto. right. exists z. simpl. tauto.
        -- intros [I|[z [[<-|I] [Cz F]]]]; auto; [contradiction|]. right. exists z. auto.
      * destruct include_last; [exists (l ++ [u]); rewrite <- app_assoc; auto|exists l; auto].
Qed.

(** Blocks not yet in the branch. *)
Definition missing (br : list nat) : nat :=
  List.length (filter (fun n => negb (memb Nat.eqb n br)) (seq 0 (List.length (blocks w)))).

Lemma filter_shorter {A} (f g : A -> bool) l :
  (forall x, In x l -> g x = true -> f x = true) -> (exists x, In x l /\ f x = true /\ g x = false) ->
  List.length (filter g l) < List.length (filter f l).
Proof.
  assert (LE : forall l, (forall x, In x l -> g x = true -> f x = true) -> List.length (filter g l) <= List.length (filter f l)).
  { clear l. induction l as [|a l IH]; simpl; intros H; auto.
    assert (IH' := IH (fun x I => H x (or_intror I))).
    destruct (g a) eqn:Ga; [rewrite (H a (or_introl eq_refl) Ga); simpl; lia|].
    destruct (f a); simpl; lia. }
  induction l as [|a l IH]; intros H [x [I [F Gx]]]; [destruct I|]. simpl.
  assert (LE' := LE l (fun y J => H y (or_intror J))).
  destruct I as [<-|I].
  - rewrite F, Gx. simpl. lia.
  - assert (IH' := IH (fun y J => H y (or_intror J)) (ex_intro _ x (conj I (conj F Gx)))).
    destruct (g a) eqn:Ga; [rewrite (H a (or_introl eq_refl) Ga); simpl; lia|].
    destruct (f a); simpl; lia.
Qed.

Lemma missing_less br br' x : (forall y, In y br -> In y br') -> valid x -> ~ In x br -> In x br' ->
  missing br' < missing br.
Proof.
  intros I L N J. unfold missing. apply filter_shorter.
  - intros y _. rewrite !negb_true_iff, !(memb_In_false _ nat_eqb_iff). auto.
  - exists x. split; [apply in_seq; lia|]. rewrite negb_true_iff, negb_false_iff.
    rewrite (memb_In_false _ nat_eqb_iff), (memb_In _ nat_eqb_iff). auto.
Qed.

Variable b0 : nat.
Hypothesis Vb : valid b0.

(** Blocks that belong to the branch of [b0]. *)
Inductive branch : nat -> Prop :=
| branch_self : branch b0
| branch_step : forall x y, feeds w x y -> taken x -> branch y -> (y = b0 \/ C y) -> branch x.

(** Every taken feeder of an expanded block is in the branch or still to be scanned. *)
Definition frontier (br ups : list nat) : Prop :=
  forall x y, feeds w x y -> taken x -> In y br -> (y = b0 \/ C y) -> In x br \/ In x ups.

Lemma loop_ok n : forall ups cs br,
  (forall u, In u ups -> In u cs /\ ~ In u br) -> (forall u, In u cs -> valid u) ->
  (forall u, In u cs -> taken u -> branch u) ->
  (forall x, In x br -> branch x) -> In b0 br -> frontier br ups -> missing br < n ->
  exists r, branch_loop condition include_last n ups cs br = Ok r
    /\ (forall x, In x r <-> branch x) /\ (exists l, r = l ++ br).
Proof.
  assert (DONE : forall br, (forall x, In x br -> branch x) -> In b0 br -> frontier br [] ->
     forall x, In x br <-> branch x).
  { intros br S0 Ib Fr x. split; auto. intros Hx. induction Hx as [|x y F T Hy IHy Cy]; auto.
    destruct (Fr x y F T IHy Cy) as [|[]]; auto. }
  induction n as [|n IH]; intros ups cs br Hu Hv Hc Hb Ib Fr M; [lia|].
  destruct cs as [|c0 cs0] eqn:Ecs.
  - exists br. split; auto. split; [|exists []; auto]. apply DONE; auto.
    destruct ups as [|u ups]; auto. exfalso. destruct (Hu u (or_introl eq_refl)) as [[] _].
  - rewrite <- Ecs in *.
    replace (branch_loop condition include_last (S n) ups cs br) with
      (let* r := scan condition include_last ups br [] in
       branch_loop condition include_last n (filter (fun b => negb (memb Nat.eqb b (fst r))) (snd r)) (snd r) (fst r))
      by (rewrite Ecs; reflexivity).
    destruct (scan_ok ups br []) as [br' [cs' [E [B1 [B2 [l B3]]]]]].
    { intros u I. apply Hv. apply Hu; auto. }
    rewrite E. cbn [bind fst snd].
    assert (V' : forall u, In u cs' -> valid u).
    { intros u I. apply B2 in I. destruct I as [[]|[z [_ [_ F]]]]. apply feeds_valid in F. tauto. }
    assert (NB : forall x, In x br' -> branch x).
    { intros x I. apply B1 in I. destruct I as [I|[I T]]; auto. apply Hc; auto. apply Hu; auto. }
    assert (NC : forall u, In u cs' -> taken u -> branch u).
    { intros u I T. apply B2 in I. destruct I as [[]|[z [I [Cz F]]]].
      apply branch_step with z; auto. apply NB. apply B1. auto. }
    assert (Fr' : frontier br' (filter (fun b => negb (memb Nat.eqb b br')) cs')).
    { intros x y F T I Cy. destruct (in_dec Nat.eq_dec x br') as [J|J]; auto.
      apply B1 in I. destruct I as [I|[I Ty]].
      - destruct (Fr x y F T I Cy) as [K|K]; left; apply B1; auto.
      - destruct (in_dec Nat.eq_dec y br) as [Iy|Iy].
        + destruct (Fr x y F T Iy Cy) as [K|K]; left; apply B1; auto.
        + right. apply filter_In. split; [|apply negb_true_iff, (memb_In_false _ nat_eqb_iff); auto].
          apply B2. right. exists y. split; auto. split; auto. destruct Cy as [->|Cy]; auto. contradiction. }
    destruct cs' as [|c1 cs1] eqn:Ec1.
    + exists br'. split; [destruct n; reflexivity|]. split; [|exists l; auto].
      apply DONE; auto. apply B1; auto.
    + rewrite <- Ec1 in *.
      destruct (IH (filter (fun b => negb (memb Nat.eqb b br')) cs') cs' br') as [r [R [R1 [l' R2]]]]; auto.
      * intros u I. apply filter_In in I. destruct I as [I J]. split; auto.
        apply negb_true_iff, (memb_In_false _ nat_eqb_iff) in J. auto.
      * apply B1; auto.
      * assert (X : In c1 cs') by (rewrite Ec1; simpl; auto). apply B2 in X.
        destruct X as [[]|[z [I [Cz F]]]].
        assert (missing br' < missing br); [|lia].
        apply missing_less with z; auto.
        -- intros y J. apply B1; auto.
        -- apply Hv, Hu; auto.
        -- apply Hu; auto.
        -- apply B1; auto.
      * exists r. split; auto. split; auto. exists (l' ++ l). rewrite R2, B3, app_assoc. auto.
Qed.

Lemma branch_ok : exists r, branch_blocks condition include_last b0 = Ok r
  /\ (forall x, In x r <-> branch x) /\ (exists l, r = l ++ [b0]).
Proof.
  unfold BranchModel.branch_blocks. destruct (upstream_ok b0 Vb) as [us [E Cu]]. rewrite E. cbn [bind].
  assert (Vu : forall u, In u us -> valid u) by (intros u I; apply Cu in I; apply feeds_valid in I; tauto).
  assert (M1 : missing [b0] < List.length (blocks w)).
  { unfold missing. rewrite <- (seq_length (List.length (blocks w)) 0) at 2.
    assert (Q : forall (f : nat -> bool) l, (exists x, In x l /\ f x = false) -> List.length (filter f l) < List.length l).
    { intros f l X. replace (List.length l) with (List.length (filter (fun _ => true) l)) by
        (f_equal; clear; induction l; simpl; congruence).
      apply filter_shorter; auto. destruct X as [x [I F]]. exists x. auto. }
    apply Q. exists b0. split; [apply in_seq; lia|]. simpl. rewrite Nat.eqb_refl. reflexivity. }
  destruct us as [|c0 cs0] eqn:Eus.
  - exists [b0]. split; auto. split; [|exists []; auto]. intros x. split.
    + intros [<-|[]]. constructor.
    + induction 1 as [|x y F T Hy IHy Cy]; simpl; auto. destruct IHy as [<-|[]].
      apply Cu in F. destruct F.
  - rewrite <- Eus in *.
    replace (branch_loop condition include_last (S (List.length (blocks w))) us us [b0]) with
      (let* r := scan condition include_last us [b0] [] in
       branch_loop condition include_last (List.length (blocks w))
         (filter (fun b => negb (memb Nat.eqb b (fst r))) (snd r)) (snd r) (fst r))
      by (rewrite Eus; reflexivity).
    destruct (scan_ok us [b0] []) as [br' [cs' [Es [B1 [B2 [l B3]]]]]]; auto.
    rewrite Es. cbn [bind fst snd].
    assert (NB : forall x, In x br' -> branch x).
    { intros x I. apply B1 in I. destruct I as [[<-|[]]|[I T]]; [constructor|].
      apply branch_step with b0; auto; [apply Cu; auto|constructor]. }
    assert (Fr' : frontier br' (filter (fun b => negb (memb Nat.eqb b br')) cs')).
    { intros x y F T I Cy. destruct (in_dec Nat.eq_dec x br') as [J|J]; auto.
      destruct (Nat.eq_dec y b0) as [->|D].
      - left. apply B1. right. split; auto. apply Cu; auto.
      - right. apply filter_In. split; [|apply negb_true_iff, (memb_In_false _ nat_eqb_iff); auto].
        apply B2. right. apply B1 in I. destruct I as [[<-|[]]|[I Ty]]; [congruence|].
        exists y. split; auto. split; auto. destruct Cy; auto; contradiction. }
    assert (ND : missing br' <= missing [b0]).
    { unfold missing. assert (LE : forall l, List.length (filter (fun n => negb (memb Nat.eqb n br')) l)
           <= List.length (filter (fun n => negb (memb Nat.eqb n [b0])) l)).
      { induction l0 as [|a l0 IHl]; cbn [filter]; auto. destruct (memb Nat.eqb a br') eqn:E1; cbn [negb].
        - destruct (negb (memb Nat.eqb a [b0])); cbn [List.length]; lia.
        - assert (E2 : memb Nat.eqb a [b0] = false).
          { apply (memb_In_false _ nat_eqb_iff) in E1. apply (memb_In_false _ nat_eqb_iff).
            intros I. apply E1. apply B1. auto. }
          rewrite E2. cbn [negb List.length]. lia. }
      apply LE. }
    destruct (loop_ok (List.length (blocks w)) (filter (fun b => negb (memb Nat.eqb b br')) cs') cs' br')
      as [r [R [R1 [l' R2]]]]; auto.
    + intros u I. apply filter_In in I. destruct I as [I J]. split; auto.
      apply negb_true_iff, (memb_In_false _ nat_eqb_iff) in J. auto.
    + intros u I. apply B2 in I. destruct I as [[]|[z [_ [_ F]]]]. apply feeds_valid in F. tauto.
    + intros u I T. apply B2 in I. destruct I as [[]|[z [I [Cz F]]]].
      apply branch_step with z; auto. apply NB. apply B1. auto.
    + apply B1. left. left. auto.
    + lia.
    + exists r. split; auto. split; auto. exists (l' ++ l). rewrite R2, B3, app_assoc. auto.
Qed.
End Loop.

Notation is_block_secondary := (is_block_secondary w default lock_flag set_order).
Notation has_upstream_block := (has_upstream_block w default lock_flag set_order).
Notation upstream_branch := (upstream_branch w default lock_flag set_order).
Notation secondary_branch_blocks := (secondary_branch_blocks w default lock_flag set_order).
Notation memorized_for := (memorized_for w default lock_flag set_order).

Lemma has_upstream_ok n : valid n -> exists c, has_upstream_block n = Ok c /\ (c = true <-> exists m, feeds w m n).
Proof.
  intros L. unfold BranchModel.has_upstream_block. destruct (upstream_ok n L) as [us [E C]]. rewrite E. cbn [bind].
  eexists. split; [reflexivity|]. destruct us as [|u us].
  - split; [discriminate|]. intros [m F]. apply C in F. destruct F.
  - split; auto. intros _. exists u. apply C. simpl; auto.
Qed.

Lemma upstream_branch_ok b : valid b -> exists r, upstream_branch b = Ok r
  /\ (forall x, In x r <-> depends_on w b x) /\ (exists l, r = l ++ [b]).
Proof.
  intros L. unfold BranchModel.upstream_branch.
  destruct (branch_ok has_upstream_block true (fun n => exists m, feeds w m n) has_upstream_ok b L) as [r [E [C S]]].
  exists r. split; auto. split; auto. intros x. rewrite C. split.
  - induction 1 as [|x y F T Hy IHy Cy]; [constructor|]. eapply depends_step; eauto.
  - induction 1 as [|x y F Hy IHy]; [constructor|]. eapply branch_step; eauto.
Qed.

Variable o : nat.
Hypothesis OUT : output w = Some o.

Lemma secondary_ok n : exists c, is_block_secondary n = Ok c /\ (c = true <-> ~ needed w n).
Proof.
  unfold BranchModel.is_block_secondary.
  destruct (runtime_blocks_ok w WF default lock_flag LS set_order SO o OUT) as [rt [R C]]. rewrite R. cbn [bind].
  eexists. split; [reflexivity|]. rewrite negb_true_iff, (memb_In_false _ nat_eqb_iff), C. tauto.
Qed.

Lemma side_branch_ok b : valid b -> exists r, branch_blocks is_block_secondary false b = Ok r
  /\ (forall x, In x r <-> leads_to w b x) /\ (exists l, r = l ++ [b]).
Proof.
  intros L.
  destruct (branch_ok is_block_secondary false (fun n => ~ needed w n) (fun n _ => secondary_ok n) b L) as [r [E [C S]]].
  exists r. split; auto. split; auto. intros x. rewrite C. split.
  - induction 1 as [|x y F T Hy IHy Cy]; [constructor|]. eapply leads_step; eauto. destruct T; [auto|discriminate].
  - induction 1 as [|x y F N Hy IHy]; [constructor|]. eapply branch_step; eauto.
    inversion Hy; auto.
Qed.

Lemma leads_valid b x : valid b -> leads_to w b x -> valid x.
Proof. intros L [|y z F _ _]; auto. apply feeds_valid in F. tauto. Qed.
Lemma depends_valid b x : valid b -> depends_on w b x -> valid x.
Proof. intros L [|y z F _]; auto. apply feeds_valid in F. tauto. Qed.

(** ** Memorized pipes *)
Lemma pipes_between_In u bu d bd p :
  nth_error (blocks w) u = Some bu -> nth_error (blocks w) d = Some bd ->
  (In p (pipes_between_blocks w bu bd) <-> pipe_joins w p u d).
Proof.
  intros Nu Nd. unfold pipes_between_blocks. rewrite filter_In. unfold block_outgoing_pipes, block_incoming_pipes.
  rewrite in_flat_map, existsb_exists. split.
  - intros [[v [Iv Ip]] [q [Iq E]]]. apply in_map_iff in Ip. destruct Ip as [[p' [s t]] [<- Ip]].
    apply output_pipes_In in Ip. destruct Ip as [N ->]. simpl in *.
    destruct q as [q|]; [|discriminate]. apply Nat.eqb_eq in E. subst q.
    apply in_map_iff in Iq. destruct Iq as [z [Ez Iz]].
    destruct (variable_input_pipe w z) as [[p2 [s2 t2]]|] eqn:P; [|discriminate]. simpl in Ez. inversion Ez; subst p2.
    apply (input_pipe_some w WF) in P. destruct P as [N2 ->]. rewrite N in N2. inversion N2; subst.
    exists bu, bd, s2, z. auto 10.
  - intros [bm [bn [s [t [Nm [Nn [Is [It N]]]]]]]]. rewrite Nu in Nm; inversion Nm; subst bm.
    rewrite Nd in Nn; inversion Nn; subst bn. split.
    + exists s. split; auto. apply in_map_iff. exists (p, (s, t)). split; auto. apply output_pipes_In. auto.
    + exists (Some p). split; [|apply Nat.eqb_refl]. apply in_map_iff. exists t. split; auto.
      assert (P : variable_input_pipe w t = Some (p, (s, t))) by (apply (input_pipe_some w WF); auto).
      rewrite P. reflexivity.
Qed.

Lemma pipe_joins_feeds p m n : pipe_joins w p m n -> feeds w m n.
Proof.
  intros [bm [bn [s [t [Nm [Nn [Is [It N]]]]]]]]. exists bm, bn, s, t. repeat (split; [assumption|]).
  eapply nth_error_In; eauto.
Qed.

Lemma mapM_total {A B} (f : A -> res B) (P : A -> B -> Prop) l :
  (forall x, In x l -> exists y, f x = Ok y /\ P x y) -> exists ys, mapM f l = Ok ys /\ Forall2 P l ys.
Proof.
  induction l as [|x l IH]; intros H; simpl; [eauto|].
  destruct (H x (or_introl eq_refl)) as [y [E Py]]. rewrite E. cbn [bind].
  destruct IH as [ys [E' F]]; [intros; apply H; simpl; auto|]. rewrite E'. cbn [bind]. eauto.
Qed.

Lemma Forall2_in_concat {A B} (P : A -> B -> Prop) l (ys : list (list B)) x :
  Forall2 (fun a y => forall z, In z y <-> P a z) l ys ->
  (In x (concat ys) <-> exists a, In a l /\ P a x).
Proof.
  induction 1 as [|a y l ys H F IH]; simpl.
  - split; [tauto|]. intros [a [[] _]].
  - rewrite in_app_iff, IH, H. split.
    + intros [Q|[a' [I Q]]]; eauto.
    + intros [a' [[<-|I] Q]]; eauto.
Qed.

Lemma memorized_for_ok n : valid n -> exists ps, memorized_for n = Ok ps
  /\ forall p, In p ps <-> exists m, needed w m /\ pipe_joins w p m n.
Proof.
  intros L. unfold BranchModel.memorized_for. destruct (upstream_ok n L) as [us [E C]]. rewrite E. cbn [bind].
  destruct (runtime_blocks_ok w WF default lock_flag LS set_order SO o OUT) as [rt [R Cr]]. rewrite R. cbn [bind].
  destruct (nth_error (blocks w) n) as [bn|] eqn:N; [|apply nth_error_None in N; lia]. cbn [of_option bind].
  destruct (mapM_total (fun u => if memb Nat.eqb u rt then
                               let* bu := of_option IndexError (nth_error (blocks w) u) in
                               Ok (pipes_between_blocks w bu bn)
                             else Ok [])
    (fun u ps => forall p, In p ps <-> needed w u /\ pipe_joins w p u n) us) as [pss [Ep Fp]].
  - intros u I. apply C in I. destruct (feeds_valid w _ _ I) as [Lu _].
    destruct (nth_error (blocks w) u) as [bu|] eqn:Nu; [|apply nth_error_None in Nu; lia].
    destruct (memb Nat.eqb u rt) eqn:M.
    + apply (memb_In _ nat_eqb_iff), Cr in M. cbn [of_option bind]. eexists. split; [reflexivity|].
      intros p. rewrite (pipes_between_In u bu n bn p Nu N). tauto.
    + apply (memb_In_false _ nat_eqb_iff) in M. rewrite Cr in M. eexists. split; [reflexivity|].
      intros p. simpl. tauto.
  - rewrite Ep. cbn [bind]. eexists. split; [reflexivity|]. intros p.
    rewrite (Forall2_in_concat (fun u p => needed w u /\ pipe_joins w p u n) us pss p Fp). split.
    + intros [a [_ Q]]. eauto.
    + intros [m [Nm J]]. exists m. split; auto. apply C. eapply pipe_joins_feeds; eauto.
Qed.

Lemma secondary_branch_ok b : valid b -> exists br ps, secondary_branch_blocks b = Ok (br, ps)
  /\ (forall x, In x br <-> leads_to w b x) /\ (exists l, br = l ++ [b])
  /\ (forall p, In p ps <-> exists m n, needed w m /\ leads_to w b n /\ pipe_joins w p m n).
Proof.
  intros L. unfold BranchModel.secondary_branch_blocks.
  destruct (side_branch_ok b L) as [br [E [C S]]]. rewrite E. cbn [bind].
  destruct (mapM_total memorized_for (fun n ps => forall p, In p ps <-> exists m, needed w m /\ pipe_joins w p m n) br)
    as [pss [Ep Fp]].
  - intros n I. apply memorized_for_ok. apply C in I. eapply leads_valid; eauto.
  - rewrite Ep. cbn [bind]. eexists. eexists. split; [reflexivity|]. split; auto. split; auto. intros p.
    rewrite (Forall2_in_concat (fun n p => exists m, needed w m /\ pipe_joins w p m n) br pss p Fp). split.
    + intros [n [I [m [Nm J]]]]. exists m, n. split; auto. split; auto. apply C; auto.
    + intros [m [n [Nm [Ln J]]]]. exists n. split; [apply C; auto|eauto].
Qed.

(** A needed block has an empty side branch. *)
Lemma leads_needed b x : needed w b -> leads_to w b x -> x = b.
Proof.
  intros Nb H. induction H as [|x y F N Hy IHy]; auto. subst. exfalso. apply N. eapply needed_upstream; eauto.
Qed.

(** ** upstream_inputs *)
Notation open_variables := (open_variables w default lock_flag).
Notation upstream_inputs := (upstream_inputs w default lock_flag set_order).

Lemma open_variables_ok n b : nth_error (blocks w) n = Some b -> forall ins,
  (forall u, In u ins -> In u (b_in b)) -> exists r, open_variables ins = Ok r
  /\ forall v, In v (fst r ++ snd r) <-> lock_flag v = false /\ is_input w v
        /\ exists u, In u ins /\ (u = v \/ In (v, u) (pipes w)).
Proof.
  intros N. induction ins as [|v ins IH]; intros Hi.
  - exists ([], []). split; auto. simpl. intros v. split; [tauto|]. intros [_ [_ [u [[] _]]]].
  - destruct IH as [r [E C]]; [intros; apply Hi; simpl; auto|]. cbn [BranchModel.open_variables].
    assert (Iv : In v (b_in b)) by (apply Hi; simpl; auto).
    assert (PORT : forall x, is_input w x -> x <> v -> In (x, v) (pipes w) \/ ~ In (x, v) (pipes w)).
    { intros x _ _. destruct (in_dec (fun a b : nat * nat => ltac:(decide equality; apply Nat.eq_dec)) (x, v) (pipes w)); auto. }
    destruct (upstream_variable w v) as [u|] eqn:U.
    + apply (upstream_variable_some w WF) in U.
      assert (NI : ~ is_input w v).
      { intros Q. apply (inputs_In w WF) in Q. apply (input_not_target w WF) in Q. apply Q.
        apply in_map_iff. exists (u, v); auto. }
      destruct (mem u (nonblock_variables w)) eqn:M.
      * apply mem_In in M. apply (nbv_In w WF) in M.
        assert (IU : is_input w u) by (right; auto).
        rewrite (locked_ok default lock_flag LS). cbn [bind]. rewrite E. cbn [bind].
        exists (if lock_flag u then r else (fst r, u :: snd r)). split; auto. intros x.
        assert (Q : In x (fst (if lock_flag u then r else (fst r, u :: snd r))
                         ++ snd (if lock_flag u then r else (fst r, u :: snd r)))
                    <-> (lock_flag u = false /\ x = u) \/ In x (fst r ++ snd r)).
        { destruct (lock_flag u); simpl; rewrite ?in_app_iff; simpl; intuition congruence. }
        rewrite Q, C. split.
        -- intros [[Lu ->]|[Lx [Ix [z [Iz Pz]]]]].
           ++ split; auto. split; auto. exists v. simpl; auto.
           ++ split; auto. split; auto. exists z. simpl; auto.
        -- intros [Lx [Ix [z [[<-|Iz] Pz]]]].
           ++ left. destruct Pz as [->|Pz]; [contradiction|].
              apply (upstream_variable_some w WF) in U, Pz. assert (x = u) by congruence. subst; auto.
           ++ right. eauto.
      * apply mem_false in M. rewrite E. exists r. split; auto. intros x. rewrite C. split.
        -- intros [Lx [Ix [z [Iz Pz]]]]. split; auto. split; auto. exists z. simpl; auto.
        -- intros [Lx [Ix [z [[<-|Iz] Pz]]]]; [|eauto]. exfalso.
           destruct Pz as [->|Pz]; [contradiction|].
           assert (x = u) by (apply (upstream_variable_some w WF) in U, Pz; congruence). subst x.
           apply M. apply (nbv_In w WF). split; [apply in_map_iff; exists (u, v); auto|].
           destruct Ix as [[b' [Ib' [J _]]]|[_ Q]]; auto. exfalso. exact (wf_source w WF _ _ b' U Ib' J).
    + apply (upstream_variable_none w WF) in U.
      assert (IV : is_input w v) by (left; exists b; split; [eapply nth_error_In; eauto|auto]).
      rewrite (locked_ok default lock_flag LS). cbn [bind]. rewrite E. cbn [bind].
      exists (if lock_flag v then r else (v :: fst r, snd r)). split; auto. intros x.
      assert (Q : In x (fst (if lock_flag v then r else (v :: fst r, snd r))
                       ++ snd (if lock_flag v then r else (v :: fst r, snd r)))
                  <-> (lock_flag v = false /\ x = v) \/ In x (fst r ++ snd r)).
      { destruct (lock_flag v); simpl; rewrite ?in_app_iff; simpl; intuition congruence. }
      rewrite Q, C. split.
      * intros [[Lu ->]|[Lx [Ix [z [Iz Pz]]]]].
        -- split; auto. split; auto. exists v. simpl; auto.
        -- split; auto. split; auto. exists z. simpl; auto.
      * intros [Lx [Ix [z [[<-|Iz] Pz]]]].
        -- left. destruct Pz as [->|Pz]; [auto|]. exfalso. apply U. apply in_map_iff. exists (x, v); auto.
        -- right. eauto.
Qed.

Lemma upstream_inputs_ok b bl v : nth_error (blocks w) b = Some bl -> In v (b_in bl ++ b_out bl) ->
  exists us, upstream_inputs v = Ok us /\ NoDup us
  /\ forall u, In u us <-> lock_flag u = false /\ exists n, depends_on w b n /\ reads_input w n u.
Proof.
  intros N I. unfold BranchModel.upstream_inputs.
  assert (EB : block_from_variable w v = Ok b).
  { unfold block_from_variable. apply in_app_or in I. destruct I as [I|I]; apply In_nth_error in I; destruct I as [j J].
    - rewrite (indices_port w WF b bl false j v N J). reflexivity.
    - rewrite (indices_port w WF b bl true j v N J). reflexivity. }
  rewrite EB. cbn [bind].
  assert (L : valid b) by (apply nth_error_Some; congruence).
  destruct (upstream_branch_ok b L) as [br [E [C _]]]. rewrite E. cbn [bind].
  destruct (mapM_total (fun n => let* bn := of_option IndexError (nth_error (blocks w) n) in
                            let* r := open_variables (b_in bn) in Ok (fst r ++ snd r))
     (fun n us => forall u, In u us <-> lock_flag u = false /\ reads_input w n u) br) as [rs [Er Fr]].
  - intros n In'. apply C in In'. assert (Ln : valid n) by (eapply depends_valid; eauto).
    destruct (nth_error (blocks w) n) as [bn|] eqn:Nn; [|apply nth_error_None in Nn; lia]. cbn [of_option bind].
    destruct (open_variables_ok n bn Nn (b_in bn) (fun u J => J)) as [r [Eo Co]]. rewrite Eo. cbn [bind].
    eexists. split; [reflexivity|]. intros u. rewrite Co. split.
    + intros [Lu [Iu [z [Iz Pz]]]]. split; auto. exists bn, z. auto.
    + intros [Lu [bn' [z [Nn' [Iz [Iu Pz]]]]]]. assert (bn' = bn) by congruence. subst. split; auto. split; eauto.
  - rewrite Er. cbn [bind]. eexists. split; [reflexivity|]. split; [apply (dedup_NoDup _ nat_eqb_iff)|].
    intros u. rewrite (dedup_In _ nat_eqb_iff).
    rewrite (Forall2_in_concat (fun n u => lock_flag u = false /\ reads_input w n u) br rs u Fr). split.
    + intros [[n [In' [Lu R]]] _]. split; auto. exists n. split; auto. apply C; auto.
    + intros [Lu [n [D R]]]. split; [|simpl; tauto]. exists n. split; auto. apply C; auto.
Qed.
End B.

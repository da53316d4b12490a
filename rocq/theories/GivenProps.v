(** C76: giving a workflow state the values of the inputs of a block. *)
From Coq Require Import List Bool Arith ZArith Lia String.
From Verif Require Import Base BaseProofs ExecModel ExecSpec ExecStruct ExecProofs GivenModel GivenSpec GivenProofs.
Import ListNotations.
Local Open Scope list_scope.
Local Open Scope nat_scope.

Section C76.
Context {V : Type}.
Variable w : workflow.
Hypothesis WF : well_formed w.
Variable type_ok : nat -> V -> bool.
Variable int_of : string -> option Z.
Notation add_several := (add_several_input_values w type_ok).
Notation add_block := (add_block_input_values w type_ok int_of).

(** The inputs asked for are those that feed the block, in the order of its inputs. *)
Theorem C76_indices bl i : In i (block_inputs_global_indices w bl) <-> exists v u, In v (b_in bl) /\ nth_error (inputs w) i = Some u /\ (v = u /\ ~ In v (map snd (pipes w)) \/ (In (u, v) (pipes w) /\ In u (nonblock_variables w))).
Proof.
  rewrite indices_in. split.
  - intros (v & I & E). destruct (index_takes w WF v i E) as (u & N & T & Eu). exists v, u. split; [exact I|]. split; [exact N|]. unfold get_upstream_nbv in Eu.
    assert (Inp := nth_error_In _ _ N). assert (NT := input_not_target w WF u Inp).
    destruct (nonblock_variables w) as [|z zs] eqn:Z; [left; subst u; auto|]. destruct (upstream_variable w v) as [u'|] eqn:U; [|left; subst u; auto].
    destruct (mem u' (z :: zs)) eqn:M; [|left; subst u; auto]. subst u'. right. apply mem_In in M. split; [apply (upstream_variable_some w WF); exact U|exact M].
  - intros (v & u & I & N & H). exists v. split; [exact I|]. assert (Inp := nth_error_In _ _ N). destruct H as [[-> NT]|[P M]].
    + apply (input_index_some w WF u i Inp). exact N.
    + unfold input_index. assert (Eu : get_upstream_nbv w v = u). { unfold get_upstream_nbv. destruct (nonblock_variables w) as [|z zs] eqn:Z; [destruct M|]. rewrite (proj2 (upstream_variable_some w WF v u) P). apply mem_In in M. rewrite M. reflexivity. }
      rewrite Eu. assert (X := proj2 (input_index_some w WF u i Inp) N). unfold input_index in X. rewrite (get_upstream_nbv_free w WF u (input_not_target w WF u Inp)) in X. exact X.
Qed.

(** When it succeeds, each of these inputs has the given value, or the one it had and was activated with; other inputs,
    blocks and the output stay as they were; variables and pipes fed by these inputs have their values. *)
Theorem C76_success b values s s' : add_block b values s = (s', None) -> exists ivalues bl, int_keys int_of values = Ok ivalues /\ py_get (blocks w) b = Ok bl /\
  given w (last_value ivalues) (block_inputs_global_indices w bl) s s' /\
  forall i v x, In i (block_inputs_global_indices w bl) -> nth_error (inputs w) i = Some v -> gets w (last_value ivalues) s i x -> type_ok v x = true.
Proof.
  unfold add_block_input_values. destruct (int_keys int_of values) as [iv|e]; [|discriminate]. destruct (py_get (blocks w) b) as [bl|e]; [|discriminate]. intros E. exists iv, bl. split; [reflexivity|]. split; [reflexivity|].
  assert (H := several w WF type_ok (last_value iv) (block_inputs_global_indices w bl) s). rewrite E in H. exact H.
Qed.
(** The block then reads these values. *)
Theorem C76_read values bl s s' v i : In bl (blocks w) -> add_several values (block_inputs_global_indices w bl) s = (s', None) -> In v (b_in bl) -> input_index w v = Some i ->
  exists x, gets w values s i x /\ read_input w v s' = Ok x /\ s_var s' v = true.
Proof.
  intros B E Vb Ei. assert (H := several w WF type_ok values (block_inputs_global_indices w bl) s). rewrite E in H. destruct H as [G _]. assert (J : In i (block_inputs_global_indices w bl)) by (apply indices_in; eauto).
  destruct (given_in _ _ _ _ _ G i J) as (x & Gx & Ix). exists x. split; [exact Gx|]. destruct (index_takes w WF v i Ei) as (u & N & T & Eu). split; [|apply (given_variables _ _ _ _ _ G); right; exists i, u; auto].
  unfold read_input. destruct (variable_input_pipe w v) as [[p [q t]]|] eqn:P.
  - assert (T' : t = v /\ nth_error (pipes w) p = Some (q, v)). { apply (input_pipe_some w WF) in P. destruct P as [Np ->]. auto. } destruct T' as [-> Np]. cbn [fst].
    destruct T as [->|T]; [exfalso; apply (input_not_target w WF u (nth_error_In _ _ N)); apply in_map_iff; exists (q, u); split; [reflexivity|eapply nth_error_In; eauto]|].
    assert (q = u) by (assert (Q := nth_error_In _ _ Np); apply (upstream_variable_some w WF) in Q; apply (upstream_variable_some w WF) in T; congruence). subst q.
    destruct (given_pipes _ _ _ _ _ G p u v Np) as [P1 _]. rewrite (P1 i J N), Ix. reflexivity.
  - rewrite Ei. cbn [of_option bind]. rewrite Ix. reflexivity.
Qed.
(** So a block fed by inputs only can be evaluated. *)
Theorem C76_activable values n bl s s' : nth_error (blocks w) n = Some bl -> (forall v, In v (b_in bl) -> input_index w v <> None) ->
  add_several values (block_inputs_global_indices w bl) s = (s', None) -> block_activable_by_inputs w n s' = true.
Proof.
  intros N H E. unfold block_activable_by_inputs. rewrite N. apply forallb_forall. intros v I. destruct (input_index w v) as [i|] eqn:Ei; [|exfalso; apply (H v I Ei)]. destruct (C76_read values bl s s' v i (nth_error_In _ _ N) E I Ei) as (x & _ & _ & X). exact X.
Qed.

(** Failures: a key that is no number, no such block, an input without value, a value of another type.  In the last
    two cases the values of the inputs before are given. *)
Theorem C76_failures b values s s' e : add_block b values s = (s', Some e) ->
  (e = ValueError /\ s' = s /\ exists k x, In (k, x) values /\ int_of k = None) \/
  (e = IndexError /\ s' = s /\ py_get (blocks w) b = Err IndexError) \/
  exists ivalues bl l1 i l2 v, int_keys int_of values = Ok ivalues /\ py_get (blocks w) b = Ok bl /\ block_inputs_global_indices w bl = l1 ++ i :: l2 /\ nth_error (inputs w) i = Some v /\
    given w (last_value ivalues) l1 s s' /\ ((e = ValueError /\ forall x, ~ gets w (last_value ivalues) s i x) \/ (e = TypeError /\ exists x, gets w (last_value ivalues) s i x /\ type_ok v x = false)).
Proof.
  unfold add_block_input_values. destruct (int_keys int_of values) as [iv|e'] eqn:K.
  - destruct (py_get (blocks w) b) as [bl|e'] eqn:B.
    + intros E. right. right. assert (H := several w WF type_ok (last_value iv) (block_inputs_global_indices w bl) s). rewrite E in H. destruct H as (l1 & i & l2 & El & _ & G & H).
      assert (J : In i (block_inputs_global_indices w bl)) by (rewrite El; apply in_or_app; right; left; auto). apply indices_in in J. destruct J as (v0 & _ & J). destruct (index_takes w WF v0 i J) as (u & Nu & _).
      destruct H as [[_ X]|(v & Nv & H)]; [congruence|]. exists iv, bl, l1, i, l2, v. auto 10.
    + intros E. injection E as <- <-. right. left. assert (X : e' = IndexError). { unfold py_get in B. destruct (py_index _ _) as [k|]; [destruct (nth_error _ _)|]; congruence. } subst. auto.
  - intros E. injection E as <- <-. left. assert (H : forall l r, int_keys (V := V) int_of l = Err r -> r = ValueError /\ exists k x, In (k, x) l /\ int_of k = None).
    { clear. induction l as [|[k x] l IH]; intros r; cbn [int_keys]; [discriminate|]. destruct (int_of k) as [z|] eqn:Z; cbn [of_option bind].
      - destruct (int_keys int_of l) as [r'|e]; cbn [bind]; [discriminate|]. intros E. injection E as <-. destruct (IH e eq_refl) as [A (k' & x' & I & N)]. split; [exact A|]. exists k', x'. split; [right; auto|auto].
      - intros E. injection E as <-. split; [reflexivity|]. exists k, x. split; [left; auto|auto]. }
    destruct (H values e' K) as [-> X]. auto.
Qed.
(** Expected of a call that fails: the state stays as it was.  A first value is kept when the second is missing. *)
Theorem C76_not_atomic_refuted values i j l v u x y s : nth_error (inputs w) i = Some v -> nth_error (inputs w) j = Some u -> i <> j -> values i = Some x -> type_ok v x = true ->
  values j = None -> s_iv s j = None -> s_iv s i = Some y -> x <> y ->
  exists s', add_several values (i :: j :: l) s = (s', Some ValueError) /\ s_iv s' i = Some x /\ s_iv s' <> s_iv s.
Proof.
  intros Ni Nj NE Vi T Vj Sj Si NX. destruct (add_char w WF type_ok i v x s Ni T) as (s' & E & A). exists s'. assert (Iv : s_iv s' i = Some x) by (rewrite (a_iv _ _ _ _ _ _ A); apply upd_same). split; [|split; [exact Iv|]].
  - cbn [add_several_input_values]. rewrite Ni, Vi, E, Nj, Vj. rewrite (a_iv _ _ _ _ _ _ A). rewrite upd_other by auto. rewrite Sj. destruct (s_var s' u); reflexivity.
  - intros F. rewrite F, Si in Iv. congruence.
Qed.
(** Values for other inputs are ignored. *)
Theorem C76_ignored values values' l s : (forall i, In i l -> values i = values' i) -> add_several values l s = add_several values' l s.
Proof.
  revert s. induction l as [|i l IH]; intros s H; cbn [add_several_input_values]; [reflexivity|]. rewrite <- (H i (or_introl eq_refl)). destruct (nth_error (inputs w) i); [|reflexivity].
  match goal with |- match ?Y with _ => _ end = _ => destruct Y as [x|] end; [|reflexivity]. destruct (add_input_value w type_ok i x s); [|reflexivity]. apply IH. intros; apply H; right; auto.
Qed.
(** Giving no value changes no input value: those that were activated stay. *)
Theorem C76_nothing_given l s s' : add_several (fun _ => None) l s = (s', None) -> forall i, s_iv s' i = s_iv s i.
Proof.
  intros E i. assert (H := several w WF type_ok (fun _ => None) l s). rewrite E in H. destruct H as [G _]. destruct (in_dec Nat.eq_dec i l) as [I|N]; [|apply (given_out _ _ _ _ _ G); exact N]. destruct (given_in _ _ _ _ _ G i I) as (x & (v & _ & [X|(_ & _ & X)]) & Y); [discriminate|congruence].
Qed.
(** Of keys that are the same number, the last counts. *)
Theorem C76_last_key (values : list (Z * V)) i x : last_value values i = Some x <-> exists a b, values = a ++ (Z.of_nat i, x) :: b /\ forall y, ~ In (Z.of_nat i, y) b.
Proof.
  induction values as [|[z y] l IH]; cbn [last_value].
  - split; [discriminate|]. intros (a & b & E & _). destruct a; discriminate.
  - destruct (last_value l i) as [x'|] eqn:E.
    + split.
      * intros F. injection F as ->. destruct (proj1 IH eq_refl) as (a & b & El & N). exists ((z, y) :: a), b. split; [rewrite El; reflexivity|exact N].
      * intros (a & b & El & N). apply IH. destruct a as [|p a]; [|injection El as _ El; exists a, b; auto]. injection El as _ _ ->. exfalso. clear -E N. induction b as [|[z' y'] b IHb]; cbn [last_value] in E; [discriminate|]. destruct (last_value b i) eqn:L; [apply IHb; [exact E|intros q Hq; apply (N q); right; auto]|].
        destruct (Z.eqb_spec z' (Z.of_nat i)) as [->|]; [|discriminate]. apply (N y'). left. auto.
    + assert (NI : forall v, ~ In (Z.of_nat i, v) l). { clear -E. induction l as [|[z' y'] l IHl]; intros q I; [destruct I|]. cbn [last_value] in E. destruct (last_value l i) eqn:L; [discriminate|]. destruct I as [F|I]; [|apply (IHl eq_refl q I)]. injection F as -> ->. rewrite Z.eqb_refl in E. discriminate. }
      destruct (Z.eqb_spec z (Z.of_nat i)) as [->|N].
      * split; [intros F; injection F as ->; exists [], l; split; [reflexivity|exact NI]|]. intros (a & b & El & Nb). destruct a as [|p a]; [injection El as -> _; reflexivity|]. injection El as _ El. exfalso. apply (NI x). rewrite El. apply in_or_app. right. left. auto.
      * split; [discriminate|]. intros (a & b & El & Nb). destruct a as [|p a]; [injection El; congruence|]. injection El as _ El. exfalso. apply (NI x). rewrite El. apply in_or_app. right. left. auto.
Qed.
End C76.

(** Two blocks: the first takes a free variable 9 and its own input 2, the second the output of the first and input 4. *)
Definition example_workflow : workflow := mkWf [mkBlock [1; 2] [3]; mkBlock [4; 5] [6]] [(9, 1); (3, 5)] (Some 6).
Definition example_state : state nat := mkState (fun i => if i =? 0 then Some 7 else None) (fun v => v =? 2) (fun _ => false) (fun _ => None) None [].
Definition example_int (k : string) : option Z := if (k =? "0")%string then Some 0%Z else if (k =? "2")%string then Some 2%Z else if (k =? "02")%string then Some 2%Z else None.
Definition shows (r : state nat * option exn) := (map (s_iv (fst r)) [0; 1; 2], map (s_var (fst r)) [1; 2; 4; 9], map (s_pipe (fst r)) [0; 1], snd r).
Example C76_example : inputs example_workflow = [2; 4; 9] /\ block_inputs_global_indices example_workflow (mkBlock [1; 2] [3]) = [2; 0] /\
  shows (add_block_input_values example_workflow (fun _ x => x <? 50) example_int (-2) [("2", 20); ("02", 30)]%string example_state)
    = ([Some 7; None; Some 30], [true; true; false; true], [Some 30; None], None) /\
  shows (add_block_input_values example_workflow (fun _ x => x <? 50) example_int 0 [("2", 20); ("0", 60)]%string example_state)
    = ([Some 7; None; Some 20], [true; true; false; true], [Some 20; None], Some TypeError) /\
  shows (add_block_input_values example_workflow (fun _ x => x <? 50) example_int 1 [("0", 20)]%string example_state)
    = ([Some 7; None; None], [false; true; false; false], [None; None], Some ValueError) /\
  snd (add_block_input_values example_workflow (fun _ x => x <? 50) example_int 2 [] example_state) = Some IndexError.
Proof. repeat split. Qed.

Print Assumptions C76_indices.
Print Assumptions C76_success.
Print Assumptions C76_read.
Print Assumptions C76_activable.
Print Assumptions C76_failures.
Print Assumptions C76_not_atomic_refuted.
Print Assumptions C76_ignored.
Print Assumptions C76_nothing_given.
Print Assumptions C76_last_key.

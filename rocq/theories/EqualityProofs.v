(** Proofs about the equality of workflows *)
From Coq Require Import ZArith Bool String List Lia.
From Verif Require Import Base BaseProofs ExecModel ExecSpec ExecProofs WiringModel WiringSpec WiringProofs ExecStruct EqualityModel EqualitySpec.
Import ListNotations.
Open Scope string_scope.
Open Scope list_scope.
Open Scope nat_scope.

(** ** Induction over nested workflows *)
Section Induction.
Variable P : wf -> Prop.
Variable Q : kind -> Prop.
Hypothesis HW : forall d i ks ss, Forall Q ks -> P (Wf d i ks ss).
Hypothesis HN : forall w, P w -> Q (KWorkflow w).
Hypothesis HF : forall w ins i, P w -> Q (KForEach w ins i).
Hypothesis HK : forall k, (forall w, k <> KWorkflow w) -> (forall w ins i, k <> KForEach w ins i) -> Q k.

Fixpoint wf_rec (w : wf) : P w :=
  match w with
  | Wf d i ks ss =>
      HW d i ks ss ((fix go ks : Forall Q ks :=
                       match ks with
                       | [] => Forall_nil _
                       | k :: ks' => Forall_cons k (kind_rec k) (go ks')
                       end) ks)
  end
with kind_rec (k : kind) : Q k.
Proof.
  destruct k; try (apply HK; intros; discriminate).
  - apply HN, wf_rec.
  - apply HF, wf_rec.
Defined.
End Induction.

(** ** Inner workflows *)
Lemma kind_cases k : {w | inner k w} + {forall w, ~ inner k w}.
Proof. destruct k; try (right; intros u U; inversion U; fail); left; eexists; constructor. Defined.

Lemma inner_unique k w w' : inner k w -> inner k w' -> w = w'.
Proof. intros H H'. inversion H; subst; inversion H'; subst; auto. Qed.

Lemma indexed_dec : forall w, {indexed w} + {~ indexed w}.
Proof.
  fix IH 1. intros [d i ks ss].
  assert ({Forall (fun s => st_index s <> None) ss} + {~ Forall (fun s => st_index s <> None) ss}) as [S|S].
  { apply Forall_dec. intros s. destruct (st_index s); [left; discriminate|right; congruence]. }
  2: { right. intros X. inversion X as [? XS _]; subst. apply S. apply Forall_forall. exact XS. }
  assert ({forall k w, In k ks -> inner k w -> indexed w} + {~ forall k w, In k ks -> inner k w -> indexed w}) as [K|K].
  { revert ks. fix go 1. intros [|k ks]; [left; intros ? ? []|].
    assert ({forall w, inner k w -> indexed w} + {~ forall w, inner k w -> indexed w}) as [D|D].
    { destruct k; try (left; intros u U; inversion U; fail).
      - destruct (IH w) as [Y|Y]; [left; intros u U; inversion U; subst; auto|right; intros H; apply Y, H; constructor].
      - destruct (IH w) as [Y|Y]; [left; intros u U; inversion U; subst; auto|right; intros H; apply Y, H; constructor]. }
    - destruct (go ks) as [Y|Y].
      + left. intros k' w [<-|I] U; eauto.
      + right. intros H. apply Y. intros k' w I. apply H. right; auto.
    - right. intros H. apply D. intros w. apply H. left; auto. }
  - left. constructor; auto. cbn [steps]. apply Forall_forall. auto.
  - right. intros X. inversion X; subst. auto.
Defined.

(** ** Boolean equalities *)
Lemma list_eqb_iff {A} (eqb : A -> A -> bool) (H : forall x y, eqb x y = true <-> x = y) l :
  forall l', list_eqb eqb l l' = true <-> l = l'.
Proof.
  induction l as [|x l IH]; intros [|x' l']; simpl; split; intros E; auto; try discriminate.
  - apply andb_prop in E. destruct E as [E1 E2]. apply H in E1. apply IH in E2. congruence.
  - injection E as -> ->. rewrite (proj2 (H x' x') eq_refl), (proj2 (IH l') eq_refl). auto.
Qed.

Lemma filter_eqb_iff f g : filter_eqb f g = true <-> f = g.
Proof.
  unfold filter_eqb. destruct f as [a b c], g as [a' b' c']; simpl.
  rewrite !andb_true_iff, !String.eqb_eq, Z.eqb_eq. split; [intros [[-> ->] ->]; auto|].
  intros E. injection E as -> -> ->. auto.
Qed.

Lemma variable_equivalent_refl v : variable_equivalent v v = true.
Proof. unfold variable_equivalent. rewrite String.eqb_refl, Nat.eqb_refl, eqb_reflx. auto. Qed.

Lemma variable_equivalent_sym v v' : variable_equivalent v v' = variable_equivalent v' v.
Proof.
  unfold variable_equivalent. rewrite String.eqb_sym, Nat.eqb_sym. f_equal.
  destruct (v_locked v), (v_locked v'); auto.
Qed.

Lemma all_equivalent_refl ins : all_equivalent ins ins = true.
Proof. unfold all_equivalent. induction ins; simpl; auto. rewrite variable_equivalent_refl. auto. Qed.

Lemma all_equivalent_sym ins : forall ins', all_equivalent ins ins' = all_equivalent ins' ins.
Proof.
  unfold all_equivalent. induction ins as [|v ins IH]; intros [|v' ins']; simpl; auto.
  rewrite variable_equivalent_sym, IH. auto.
Qed.

Lemma all_equivalent_forall2 ins ins' : List.length ins = List.length ins' ->
  (all_equivalent ins ins' = true <-> Forall2 (fun v v' => variable_equivalent v v' = true) ins ins').
Proof.
  unfold all_equivalent. revert ins'. induction ins as [|v ins IH]; intros [|v' ins'] L; simpl in *; try discriminate.
  - split; auto.
  - rewrite andb_true_iff, IH by lia. split.
    + intros [? ?]. constructor; auto.
    + intros F. inversion F; auto.
Qed.

Lemma base_equivalent_refl k ins : base_equivalent k ins k ins = true.
Proof. unfold base_equivalent. rewrite all_equivalent_refl. apply String.eqb_refl. Qed.

Lemma base_equivalent_sym k ins k' ins' : base_equivalent k ins k' ins' = base_equivalent k' ins' k ins.
Proof. unfold base_equivalent. rewrite all_equivalent_sym, String.eqb_sym. auto. Qed.

Lemma step_eqb_refl s : step_eqb s s = true.
Proof.
  unfold step_eqb. rewrite String.eqb_refl, !all_equivalent_refl, Nat.eqb_refl.
  destruct (st_display s), (st_index s); rewrite ?Nat.eqb_refl, ?Z.eqb_refl; auto.
Qed.

Lemma step_eqb_sym s s' : step_eqb s s' = step_eqb s' s.
Proof.
  unfold step_eqb. rewrite String.eqb_sym, (all_equivalent_sym (st_inputs s)), (all_equivalent_sym (st_group s)).
  rewrite (Nat.eqb_sym (String.length (st_doc s))). f_equal; [f_equal; f_equal|].
  - destruct (st_display s), (st_display s'); auto using Nat.eqb_sym.
  - destruct (st_index s), (st_index s'); auto using Z.eqb_sym.
Qed.

Lemma steps_sym ss : forall ss',
  forallb (fun x => step_eqb (fst x) (snd x)) (combine ss ss') = forallb (fun x => step_eqb (fst x) (snd x)) (combine ss' ss).
Proof. induction ss as [|s ss IH]; intros [|s' ss']; simpl; auto. rewrite step_eqb_sym, IH. auto. Qed.

Lemma set_eqb_refl l : set_eqb l l = true.
Proof.
  unfold set_eqb. rewrite andb_diag. apply forallb_forall. intros p I. unfold memb. apply existsb_exists.
  exists p. split; auto. unfold pair_eqb. rewrite !Nat.eqb_refl. auto.
Qed.

Lemma set_eqb_sym l l' : set_eqb l l' = set_eqb l' l.
Proof. unfold set_eqb. apply andb_comm. Qed.

Lemma pair_eqb_iff p q : pair_eqb p q = true <-> p = q.
Proof.
  unfold pair_eqb. destruct p as [a b], q as [a' b']; simpl. rewrite andb_true_iff, !Nat.eqb_eq.
  split; [intros [-> ->]; auto|]. intros E. injection E as -> ->. auto.
Qed.

Lemma memb_pair p l : memb pair_eqb p l = true <-> In p l.
Proof.
  unfold memb. rewrite existsb_exists. split.
  - intros (q & I & E). apply pair_eqb_iff in E. subst; auto.
  - intros I. exists p. split; auto. apply pair_eqb_iff; auto.
Qed.

Lemma set_eqb_iff l l' : set_eqb l l' = true <-> (forall p, In p l <-> In p l').
Proof.
  unfold set_eqb. rewrite andb_true_iff, !forallb_forall. split.
  - intros [H1 H2] p. split; intros I.
    + apply memb_pair, H1; auto.
    + apply memb_pair, H2; auto.
  - intros H. split; intros p I; apply memb_pair, H; auto.
Qed.

(** ** Lists of results *)
Lemma sum_res_ok {A B} (f : A -> B -> res Z) l : forall r h, sum_res f l r = Ok h ->
  forall i x y, nth_error l i = Some x -> nth_error r i = Some y -> exists hx, f x y = Ok hx.
Proof.
  induction l as [|x l IH]; intros [|y r] h H [|i] x' y' Hx Hy; simpl in *; try discriminate.
  - injection Hx as ->. injection Hy as ->. destruct (f x' y') eqn:E; [eauto|discriminate].
  - destruct (f x y) eqn:E; [|discriminate]. cbn [bind] in H. destruct (sum_res f l r) eqn:E2; [|discriminate]. eauto.
Qed.

Lemma sum_res_ext {A B} (f : A -> B -> res Z) l : forall r r',
  (forall i x y, nth_error l i = Some x -> nth_error r i = Some y -> exists y', nth_error r' i = Some y' /\ f x y = f x y') ->
  List.length r = List.length r' ->
  sum_res f l r = sum_res f l r'.
Proof.
  induction l as [|x l IH]; intros [|y r] [|y' r'] H L; simpl in *; try discriminate; auto.
  destruct (H 0 x y eq_refl eq_refl) as (y2 & E1 & E2). simpl in E1. injection E1 as <-. rewrite E2.
  rewrite (IH r r'); auto. intros i x1 y1 H1 H2. exact (H (S i) x1 y1 H1 H2).
Qed.

Lemma all_res_true {A B} (f : A -> B -> A -> B -> res bool) l : forall r l' r',
  List.length l = List.length r -> List.length l' = List.length r' ->
  (all_res f l r l' r' = Ok true <->
   forall i x y x' y', nth_error l i = Some x -> nth_error r i = Some y ->
     nth_error l' i = Some x' -> nth_error r' i = Some y' -> f x y x' y' = Ok true).
Proof.
  induction l as [|x l IH]; intros [|y r] [|x' l'] [|y' r'] L L'; simpl in *; try discriminate; split; auto;
    try (intros _ [|i] ? ? ? ? ? ? ? ?; simpl in *; discriminate).
  - destruct (f x y x' y') as [[|]|] eqn:E; cbn [bind]; intros H.
    + intros [|i] a b a' b' Ha Hb Ha' Hb'; simpl in *.
      * injection Ha as <-. injection Hb as <-. injection Ha' as <-. injection Hb' as <-. auto.
      * apply (proj1 (IH r l' r' ltac:(lia) ltac:(lia)) H i a b a' b'); auto.
    + discriminate.
    + discriminate.
  - intros H. rewrite (H 0 x y x' y' eq_refl eq_refl eq_refl eq_refl). cbn [bind]. apply IH; try lia.
    intros i a b a' b' Ha Hb Ha' Hb'. exact (H (S i) a b a' b' Ha Hb Ha' Hb').
Qed.

Lemma mapM_ok_forall {A B} (f : A -> res B) l : (forall x, In x l -> exists y, f x = Ok y) -> exists ys, mapM f l = Ok ys.
Proof.
  induction l as [|x l IH]; intros H; simpl; eauto. destruct (H x (or_introl eq_refl)) as (y & ->).
  destruct IH as (ys & ->); [intros z I; apply H; simpl; auto|]. simpl. eauto.
Qed.

Lemma variable_index_ok d v : In v (variables d) -> exists i, variable_index d v = Ok i.
Proof.
  intros I. unfold variable_index. destruct (index_of_In Nat.eqb Nat.eqb_eq v (variables d) I) as (i & ->). simpl. eauto.
Qed.

Lemma handle_pipe_grows p s v : In v (fst s) -> In v (fst (handle_pipe s p)).
Proof.
  intros I. unfold handle_pipe.
  destruct (mem (fst p) (fst s)) eqn:E1; simpl; destruct (mem (snd p) _) eqn:E2; simpl; auto using in_or_app.
Qed.

Lemma handle_pipe_ends p s : In (fst p) (fst (handle_pipe s p)) /\ In (snd p) (fst (handle_pipe s p)).
Proof.
  assert (M : forall v l, mem v l = true -> In v l).
  { intros v l H. unfold mem, memb in H. apply existsb_exists in H. destruct H as (u & I & E). apply Nat.eqb_eq in E. subst; auto. }
  unfold handle_pipe.
  set (s1 := if mem (fst p) (fst s) then s else (fst s ++ [fst p], snd s ++ [fst p])).
  assert (In (fst p) (fst s1)) as I1.
  { unfold s1. destruct (mem (fst p) (fst s)) eqn:E1; [auto|]. simpl. apply in_or_app. simpl; auto. }
  destruct (mem (snd p) (fst s1)) eqn:E2; simpl; split; auto; apply in_or_app; simpl; auto.
Qed.

Lemma handle_pipes_ends d : forall p, In p (pipes d) -> In (fst p) (variables d) /\ In (snd p) (variables d).
Proof.
  intros p. unfold variables, handle_pipes. generalize (block_variables d, @nil nat) as s.
  assert (G : forall ps s v, In v (fst s) -> In v (fst (fold_left handle_pipe ps s))).
  { intros ps. induction ps as [|q ps IH]; intros s v I; simpl; auto. apply IH, handle_pipe_grows; auto. }
  induction (pipes d) as [|q ps IH]; intros s I; simpl in *; [tauto|]. destruct I as [->|I]; auto.
  destruct (handle_pipe_ends p s). auto.
Qed.

Section Hashes.
Variable hash_string : string -> Z.
Variable hash_number : Z -> Z.
Variable hash_address : option address -> Z.
Variable hash_display : option nat -> Z.
Variable hash_configuration : nat -> Z.
Notation whash := (wf_hash hash_string hash_number hash_address hash_display hash_configuration).
Notation khash := (kind_hash hash_string hash_number hash_address hash_display hash_configuration).
Notation weq := (wf_eq hash_string hash_number hash_address hash_display hash_configuration).
Notation kequiv := (kind_equivalent hash_string hash_number hash_address hash_display hash_configuration).
Notation shash := (hash_step hash_string hash_display).

Lemma whash_unfold w : whash w =
  (let* o := output_indices (diagram w) in
   let* block_hash := sum_res khash (kinds w) (block_inputs w) in
   let* step_hashes := mapM shash (steps w) in
   Ok ((Z.of_nat (List.length (blocks (diagram w))) + 11 * Z.of_nat (List.length (pipes (diagram w)))
                  + 23 * locked_count (input_infos w) + hash_address o + block_hash mod 1000000 + sum step_hashes) mod 1000000000))%Z.
Proof. destruct w. reflexivity. Qed.

Lemma khash_for_each w bins i ins : khash (KForEach w bins i) ins = (let* h := whash w in Ok (h mod 1000000 + i)%Z).
Proof. reflexivity. Qed.

Lemma kequiv_for_each w bins i ins k' ins' : kequiv (KForEach w bins i) ins k' ins' =
  (let* f := for_each k' in
   let '(w', bins', i') := f in
   let* same := (if all_equivalent bins bins' then weq w w' else Ok false) in
   Ok (base_equivalent (KForEach w bins i) ins k' ins' && same && Z.eqb i i')).
Proof. reflexivity. Qed.

Lemma kequiv_workflow w ins k' ins' : kequiv (KWorkflow w) ins k' ins' =
  (if base_equivalent (KWorkflow w) ins k' ins' then let* w' := inner_workflow k' in weq w w' else Ok false).
Proof. reflexivity. Qed.

Lemma weq_unfold w w' : weq w w' =
  (let* h := whash w in
   let* h' := whash w' in
   if negb (Z.eqb h h') then Ok false
   else if negb (all_equivalent (input_infos w) (input_infos w')) then Ok false
   else
     let* same_blocks := all_res kequiv (kinds w) (block_inputs w) (kinds w') (block_inputs w') in
     if negb same_blocks then Ok false
     else
       let* same_pipes := equivalent_pipes (diagram w) (diagram w') in
       if negb same_pipes then Ok false
       else Ok (forallb (fun ss => step_eqb (fst ss) (snd ss)) (combine (steps w) (steps w')))).
Proof. destruct w. reflexivity. Qed.

Lemma weq_true w w' : weq w w' = Ok true <->
  (exists h, whash w = Ok h /\ whash w' = Ok h)
  /\ all_equivalent (input_infos w) (input_infos w') = true
  /\ all_res kequiv (kinds w) (block_inputs w) (kinds w') (block_inputs w') = Ok true
  /\ equivalent_pipes (diagram w) (diagram w') = Ok true
  /\ forallb (fun ss => step_eqb (fst ss) (snd ss)) (combine (steps w) (steps w')) = true.
Proof.
  rewrite weq_unfold. destruct (whash w) as [h|e]; cbn [bind].
  2: { split; [discriminate|]. intros ((h & E & _) & _). discriminate. }
  destruct (whash w') as [h'|e]; cbn [bind].
  2: { split; [discriminate|]. intros ((? & _ & E) & _). discriminate. }
  destruct (Z.eqb h h') eqn:Eh; cbn [negb].
  2: { split; [discriminate|]. intros ((x & E1 & E2) & _). injection E1 as ->. injection E2 as ->.
       rewrite Z.eqb_refl in Eh. discriminate. }
  apply Z.eqb_eq in Eh. subst h'.
  destruct (all_equivalent (input_infos w) (input_infos w')); cbn [negb].
  2: { split; [discriminate|]. intros (_ & E & _). discriminate. }
  destruct (all_res _ _ _ _ _) as [[|]|]; cbn [bind negb].
  2,3: split; [discriminate|]; intros (_ & _ & E & _); discriminate.
  destruct (equivalent_pipes _ _) as [[|]|]; cbn [bind negb].
  2,3: split; [discriminate|]; intros (_ & _ & _ & E & _); discriminate.
  split.
  - intros E. injection E as E. rewrite E. repeat split; auto. eauto.
  - intros (_ & _ & _ & _ & ->). auto.
Qed.

Lemma equivalent_pipes_self d : equivalent_pipes d d = Ok true.
Proof.
  unfold equivalent_pipes.
  assert (forall ps, incl ps (pipes d) ->
    exists l, mapM (fun pp : (nat * nat) * (nat * nat) => pipe_index d (fst pp)) (combine ps ps) = Ok l
           /\ mapM (fun pp : (nat * nat) * (nat * nat) => pipe_index d (snd pp)) (combine ps ps) = Ok l) as H.
  { induction ps as [|p ps IH]; intros I; [simpl; eauto|].
    destruct IH as (l & E1 & E2); [intros x J; apply I; simpl; auto|].
    destruct (handle_pipes_ends d p (I p (or_introl eq_refl))) as [I1 I2].
    destruct (variable_index_ok d _ I1) as (i & Ei). destruct (variable_index_ok d _ I2) as (j & Ej).
    assert (pipe_index d p = Ok (i, j)) as E by (unfold pipe_index; rewrite Ei, Ej; auto).
    exists ((i, j) :: l). cbn [combine mapM fst snd]. rewrite E. cbn [bind]. rewrite E1, E2. auto. }
  destruct (H (pipes d) (incl_refl _)) as (l & -> & ->). cbn [bind]. rewrite set_eqb_refl. auto.
Qed.

Lemma steps_self ss : forallb (fun x => step_eqb (fst x) (snd x)) (combine ss ss) = true.
Proof. induction ss; simpl; auto. rewrite step_eqb_refl. auto. Qed.

Lemma base_equivalent_same k ins ins' : base_equivalent k ins k ins' = all_equivalent ins ins'.
Proof. unfold base_equivalent. rewrite String.eqb_refl. destruct (all_equivalent ins ins'); auto. Qed.

Lemma locked_count_equivalent ins ins' : List.length ins = List.length ins' -> all_equivalent ins ins' = true ->
  locked_count ins = locked_count ins'.
Proof.
  intros L E. apply all_equivalent_forall2 in E; auto. unfold locked_count. f_equal.
  induction E as [|v v' ins ins' E F IH]; auto. simpl in *.
  unfold variable_equivalent in E. apply andb_prop in E. destruct E as [_ E]. apply eqb_prop in E. rewrite E.
  destruct (v_locked v'); simpl in *; rewrite IH by lia; auto.
Qed.

Lemma khash_inputs k ins ins' : List.length ins = List.length ins' -> all_equivalent ins ins' = true ->
  khash k ins = khash k ins'.
Proof.
  intros L E. destruct k; try reflexivity; cbn [kind_hash]; rewrite (locked_count_equivalent ins ins'); auto.
Qed.

Lemma block_inputs_length w : List.length (block_inputs w) = List.length (blocks (diagram w)).
Proof. unfold block_inputs. apply map_length. Qed.

Lemma all_res_self (l : list kind) : forall r h, sum_res khash l r = Ok h ->
  Forall (fun k => forall ins ins' h, khash k ins = Ok h -> all_equivalent ins ins' = true -> kequiv k ins k ins' = Ok true) l ->
  all_res kequiv l r l r = Ok true.
Proof.
  induction l as [|k l IH]; intros [|y r] h H F; simpl in *; auto.
  inversion F as [|? ? F1 F2]; subst.
  destruct (khash k y) as [hk|] eqn:E; cbn [bind] in H; [|discriminate].
  destruct (sum_res khash l r) as [hl|] eqn:E2; cbn [bind] in H; [|discriminate].
  rewrite (F1 y y hk); auto using all_equivalent_refl. cbn [bind]. eauto.
Qed.

Lemma list_eqb_refl {A} (eqb : A -> A -> bool) (H : forall x y, eqb x y = true <-> x = y) l : list_eqb eqb l l = true.
Proof. apply list_eqb_iff; auto. Qed.

(** A workflow that has a hash is equal to itself. *)
Lemma self_equal : forall w h, whash w = Ok h -> weq w w = Ok true.
Proof.
  apply (wf_rec (fun w => forall h, whash w = Ok h -> weq w w = Ok true)
           (fun k => forall ins ins' h, khash k ins = Ok h -> all_equivalent ins ins' = true -> kequiv k ins k ins' = Ok true)).
  - intros d i ks ss F h H. apply weq_true. split; [eauto|]. split; [apply all_equivalent_refl|].
    split; [|split; [apply equivalent_pipes_self|apply steps_self]].
    rewrite whash_unfold in H. destruct (output_indices _); cbn [bind] in H; [|discriminate].
    destruct (sum_res _ _ _) as [hs|] eqn:E; cbn [bind] in H; [|discriminate].
    apply (all_res_self _ _ hs); auto.
  - intros w IH ins ins' h H E. rewrite kequiv_workflow, base_equivalent_same, E. cbn [inner_workflow bind].
    apply (IH h). exact H.
  - intros w bins i IH ins ins' h H E. rewrite kequiv_for_each. cbn [for_each bind]. rewrite base_equivalent_same, E.
    rewrite all_equivalent_refl. rewrite khash_for_each in H. destruct (whash w) as [hw|] eqn:Ew; cbn [bind] in H; [|discriminate].
    rewrite (IH hw); auto. cbn [bind andb]. rewrite Z.eqb_refl. auto.
  - intros k N1 N2 ins ins' h H E. 
    destruct k; cbn [kind_equivalent model_metaclass method_type EqualityModel.number_arguments EqualityModel.number_list
      EqualityModel.number_elements EqualityModel.separator EqualityModel.indices EqualityModel.filters
      EqualityModel.attributes EqualityModel.configurations EqualityModel.attribute_name attribute_type bind fst snd];
      rewrite ?base_equivalent_same, ?E; cbn [andb]; rewrite ?String.eqb_refl, ?Nat.eqb_refl;
      rewrite ?(list_eqb_refl _ Z.eqb_eq), ?(list_eqb_refl _ filter_eqb_iff), ?(list_eqb_refl _ String.eqb_eq),
        ?(list_eqb_refl _ Nat.eqb_eq); auto.
    + exfalso. eapply N1; eauto.
    + exfalso. eapply N2; eauto.
Qed.

Lemma kind_self k ins ins' h : khash k ins = Ok h -> all_equivalent ins ins' = true -> kequiv k ins k ins' = Ok true.
Proof.
  intros H E. destruct k.
  19: { rewrite kequiv_workflow, base_equivalent_same, E. cbn [inner_workflow bind]. apply (self_equal w h). exact H. }
  19: { rewrite kequiv_for_each. cbn [for_each bind]. rewrite base_equivalent_same, E, all_equivalent_refl.
        rewrite khash_for_each in H. destruct (whash w) as [hw|] eqn:Ew; cbn [bind] in H; [|discriminate].
        rewrite (self_equal w hw); auto. cbn [bind andb]. rewrite Z.eqb_refl. auto. }
  all: cbn [kind_equivalent model_metaclass method_type EqualityModel.number_arguments EqualityModel.number_list
      EqualityModel.number_elements EqualityModel.separator EqualityModel.indices EqualityModel.filters
      EqualityModel.attributes EqualityModel.configurations EqualityModel.attribute_name attribute_type bind fst snd];
      rewrite ?base_equivalent_same, ?E; cbn [andb]; rewrite ?String.eqb_refl, ?Nat.eqb_refl;
      rewrite ?(list_eqb_refl _ Z.eqb_eq), ?(list_eqb_refl _ filter_eqb_iff), ?(list_eqb_refl _ String.eqb_eq),
        ?(list_eqb_refl _ Nat.eqb_eq); auto.
Qed.

(** ** The same diagram over other variables *)
Section Same.
Variable d : workflow.
Hypothesis WF : well_formed d.
Variable f : nat -> nat.
Hypothesis SEP : separates f d.
Variables i i' : nat -> variable_info.
Hypothesis EQ : forall v, In v (variables d) -> variable_equivalent (i v) (i' (f v)) = true.

Lemma infos_equivalent l : incl l (variables d) -> all_equivalent (map i l) (map i' (map f l)) = true.
Proof.
  intros I. apply all_equivalent_forall2; [rewrite !map_length; auto|].
  induction l as [|v l IH]; simpl; constructor; [apply EQ, I; simpl; auto|apply IH; intros x J; apply I; simpl; auto].
Qed.

Lemma block_incl b : In b (blocks d) -> incl (b_in b) (variables d).
Proof.
  intros I v J. apply (ports_incl d WF). unfold block_variables. apply in_flat_map. exists b. split; auto.
  apply in_or_app; auto.
Qed.

Lemma index_of_relabel v l : In v (variables d) -> incl l (variables d) ->
  index_of Nat.eqb (f v) (map f l) = index_of Nat.eqb v l.
Proof.
  intros I. induction l as [|u l IH]; intros J; simpl; auto.
  rewrite (eqb_map f (variables d) SEP v u I (J u (or_introl eq_refl))), IH; auto. intros x K. apply J. simpl; auto.
Qed.

Lemma find_port_relabel v bs : In v (variables d) -> incl bs (blocks d) -> forall n,
  find_port n (map (rename_block f) bs) (f v) = find_port n bs v.
Proof.
  intros I. induction bs as [|b bs IH]; intros J n; simpl; auto.
  assert (In b (blocks d)) as Ib by (apply J; simpl; auto).
  assert (incl (b_out b) (variables d)) as Io.
  { intros u K. apply (ports_incl d WF). unfold block_variables. apply in_flat_map. exists b. split; auto. apply in_or_app; auto. }
  rewrite !index_of_relabel by auto using block_incl. rewrite IH by (intros x K; apply J; simpl; auto). auto.
Qed.

Lemma output_indices_relabel : output_indices (relabel f d) = output_indices d.
Proof.
  unfold output_indices. cbn [relabel output]. destruct (output d) as [o|] eqn:O; auto. cbn [option_map].
  destruct (wf_output d WF o O) as (b & Ib & Io).
  assert (In o (variables d)) as Iv.
  { apply (ports_incl d WF). unfold block_variables. apply in_flat_map. exists b. split; auto. apply in_or_app; auto. }
  assert (exists a, find_port 0 (blocks d) o = Some a) as (a & Fa).
  { clear - Ib Io. generalize 0. induction (blocks d) as [|c bs IH]; intros n; simpl in *; [tauto|].
    destruct (index_of Nat.eqb o (b_in c)) eqn:E1; eauto.
    destruct (index_of Nat.eqb o (b_out c)) eqn:E2; eauto.
    destruct Ib as [->|Ib]; [|apply IH; auto].
    apply (index_of_None Nat.eqb Nat.eqb_eq) in E2. tauto. }
  unfold variable_indices. cbn [relabel blocks]. fold (rename_block f).
  change (fun b0 : block => {| b_in := map f (b_in b0); b_out := map f (b_out b0) |}) with (rename_block f).
  rewrite (find_port_relabel o (blocks d) Iv (incl_refl _)), Fa. auto.
Qed.

Lemma variable_index_relabel v : In v (variables d) -> variable_index (relabel f d) (f v) = variable_index d v.
Proof.
  intros I. unfold variable_index. rewrite (variables_map d WF f SEP), index_of_relabel; auto using incl_refl.
Qed.

Lemma equivalent_pipes_relabel : equivalent_pipes d (relabel f d) = Ok true.
Proof.
  unfold equivalent_pipes. cbn [relabel pipes]. 
  assert (forall ps, incl ps (pipes d) ->
    exists l, mapM (fun pp : (nat * nat) * (nat * nat) => pipe_index d (fst pp)) (combine ps (map (fun p => (f (fst p), f (snd p))) ps)) = Ok l
           /\ mapM (fun pp : (nat * nat) * (nat * nat) => pipe_index (relabel f d) (snd pp)) (combine ps (map (fun p => (f (fst p), f (snd p))) ps)) = Ok l) as H.
  { induction ps as [|p ps IH]; intros I; [simpl; eauto|].
    destruct IH as (l & E1 & E2); [intros x J; apply I; simpl; auto|].
    destruct (handle_pipes_ends d p (I p (or_introl eq_refl))) as [I1 I2].
    destruct (variable_index_ok d _ I1) as (a & Ea). destruct (variable_index_ok d _ I2) as (b & Eb).
    exists ((a, b) :: l). cbn [map combine mapM fst snd]. 
    assert (pipe_index d p = Ok (a, b)) as -> by (unfold pipe_index; rewrite Ea, Eb; auto).
    assert (pipe_index (relabel f d) (f (fst p), f (snd p)) = Ok (a, b)) as ->.
    { unfold pipe_index. cbn [fst snd]. rewrite !variable_index_relabel, Ea, Eb by auto. auto. }
    cbn [bind]. rewrite E1, E2. auto. }
  destruct (H (pipes d) (incl_refl _)) as (l & -> & ->). cbn [bind]. rewrite set_eqb_refl. auto.
Qed.

Variable ks : list kind.
Variable ss : list step.
Let w := Wf d i ks ss.
Let w' := Wf (relabel f d) i' ks ss.

Lemma input_infos_relabel : all_equivalent (input_infos w) (input_infos w') = true.
Proof.
  unfold input_infos, w, w'. cbn [info diagram]. rewrite (inputs_map d WF f SEP). apply infos_equivalent.
  intros v I. unfold inputs in I. apply filter_In in I. tauto.
Qed.

Lemma block_inputs_nth n ins : nth_error (block_inputs w) n = Some ins ->
  exists ins', nth_error (block_inputs w') n = Some ins' /\ List.length ins = List.length ins'
    /\ all_equivalent ins ins' = true.
Proof.
  unfold block_inputs, w, w'. cbn [info diagram relabel blocks]. rewrite map_map, !nth_error_map.
  destruct (nth_error (blocks d) n) as [b|] eqn:E; simpl; [|discriminate]. intros H. injection H as <-.
  eexists. split; [reflexivity|]. split; [rewrite !map_length; auto|]. apply infos_equivalent.
  apply block_incl. eapply nth_error_In; eauto.
Qed.

Lemma hash_relabel : whash w' = whash w.
Proof.
  rewrite !whash_unfold. unfold w, w'. cbn [diagram]. rewrite output_indices_relabel.
  fold w. fold w'. cbn [kinds w w' steps].
  destruct (output_indices d) as [o|]; cbn [bind]; auto.
  assert (sum_res khash ks (block_inputs w') = sum_res khash ks (block_inputs w)) as ->.
  { symmetry. apply sum_res_ext.
    - intros n k ins _ Hi. destruct (block_inputs_nth n ins Hi) as (ins' & H1 & H2 & H3).
      exists ins'. split; auto. apply khash_inputs; auto.
    - rewrite !block_inputs_length. unfold w, w'. simpl. rewrite map_length. auto. }
  cbn [relabel blocks pipes]. rewrite !map_length.
  rewrite (locked_count_equivalent (input_infos w) (input_infos w')); auto.
  - unfold input_infos, w, w'. cbn [info diagram]. rewrite (inputs_map d WF f SEP), !map_length. auto.
  - apply input_infos_relabel.
Qed.

Lemma relabel_equal h : whash w = Ok h -> weq w w' = Ok true.
Proof.
  intros H. apply weq_true. split; [exists h; rewrite hash_relabel; auto|].
  split; [apply input_infos_relabel|]. split; [|split; [apply equivalent_pipes_relabel|apply steps_self]].
  cbn [kinds w w'].
  rewrite whash_unfold in H. destruct (output_indices _); cbn [bind] in H; [|discriminate].
  destruct (sum_res _ _ _) as [hs|] eqn:E; cbn [bind] in H; [|discriminate]. clear H.
  cbn [kinds w] in E.
  pose proof block_inputs_nth as B. revert E B. generalize (block_inputs w) (block_inputs w') hs. clear.
  induction ks as [|k ks' IH]; intros [|ins r] [|ins' r'] hs E B; simpl in *; auto.
  destruct (khash k ins) as [hk|] eqn:Ek; cbn [bind] in E; [|discriminate].
  destruct (sum_res khash ks' r) as [hl|] eqn:E2; cbn [bind] in E; [|discriminate].
  destruct (B 0 ins eq_refl) as (x & X1 & X2 & X3). simpl in X1. injection X1 as <-.
  rewrite (kind_self k ins ins' hk); auto. cbn [bind]. apply (IH r r' hl); auto.
  intros n y Hy. exact (B (S n) y Hy).
Qed.

End Same.

(** ** What equality says *)
Ltac split_and := repeat match goal with H : _ && _ = true |- _ => apply andb_prop in H; destruct H end.

Lemma base_class k ins k' ins' : base_equivalent k ins k' ins' = true ->
  class_name k = class_name k' /\ all_equivalent ins ins' = true.
Proof. unfold base_equivalent. destruct (all_equivalent ins ins'); [|discriminate]. rewrite String.eqb_eq. auto. Qed.

Lemma kequiv_true k ins k' ins' : kequiv k ins k' ins' = Ok true ->
  all_equivalent ins ins' = true /\ same_kind (fun w w' => weq w w' = Ok true) k k'.
Proof.
  intros H.
  assert (base_equivalent k ins k' ins' = true) as B.
  { destruct (base_equivalent k ins k' ins') eqn:B; auto. exfalso. destruct k.
    20: { rewrite kequiv_for_each in H. destruct (for_each k') as [[[w' b'] i']|]; cbn [bind] in H; [|discriminate].
          destruct (if all_equivalent _ _ then _ else _) as [sm|]; cbn [bind] in H; [|discriminate]. rewrite B in H. discriminate. }
    all: cbn [kind_equivalent] in H; rewrite B in H; try discriminate;
      repeat match type of H with (let* _ := ?e in _) = _ => destruct e; cbn [bind] in H; [|discriminate] end; discriminate. }
  destruct (base_class _ _ _ _ B) as [C A]. split; auto.
  destruct k.
  19: { rewrite kequiv_workflow, B in H. destruct k'; try (destruct c; discriminate C); try (destruct deprecated; discriminate C); try discriminate C. 
        cbn [inner_workflow bind] in H. constructor. auto. }
  19: { rewrite kequiv_for_each in H. destruct k'; try discriminate H. cbn [for_each bind] in H.
        destruct (all_equivalent block_inputs block_inputs0) eqn:E; [|cbn [bind] in H; rewrite andb_false_r in H; discriminate].
        destruct (weq w w0) as [sm|] eqn:Ew; cbn [bind] in H; [|discriminate]. injection H as H. split_and. subst.
        apply Z.eqb_eq in H0. subst. constructor; auto. }
  all: cbn [kind_equivalent] in H; rewrite B in H;
    destruct k'; try discriminate H; try discriminate C; try (destruct c; discriminate C); try (destruct deprecated; discriminate C);
    try (destruct c, deprecated; discriminate C);
    cbn [model_metaclass method_type EqualityModel.number_arguments EqualityModel.number_list
      EqualityModel.number_elements EqualityModel.separator EqualityModel.indices EqualityModel.filters
      EqualityModel.attributes EqualityModel.configurations EqualityModel.attribute_name attribute_type bind fst snd andb] in H;
    try (injection H as H); split_and;
    repeat match goal with
    | H : String.eqb _ _ = true |- _ => apply String.eqb_eq in H
    | H : Nat.eqb _ _ = true |- _ => apply Nat.eqb_eq in H
    | H : list_eqb Z.eqb _ _ = true |- _ => apply (list_eqb_iff _ Z.eqb_eq) in H
    | H : list_eqb filter_eqb _ _ = true |- _ => apply (list_eqb_iff _ filter_eqb_iff) in H
    | H : list_eqb String.eqb _ _ = true |- _ => apply (list_eqb_iff _ String.eqb_eq) in H
    | H : list_eqb Nat.eqb _ _ = true |- _ => apply (list_eqb_iff _ Nat.eqb_eq) in H
    end; subst; try constructor.
  - destruct deprecated, deprecated0; try discriminate C; constructor.
  - destruct c, c0; try discriminate C; constructor.
Qed.

Lemma variable_equivalent_iff v v' : variable_equivalent v v' = true <-> same_variable v v'.
Proof.
  unfold variable_equivalent, same_variable. rewrite !andb_true_iff, String.eqb_eq, Nat.eqb_eq, Bool.eqb_true_iff. tauto.
Qed.

Lemma equivalent_same ins ins' : Forall2 (fun v v' => variable_equivalent v v' = true) ins ins' -> Forall2 same_variable ins ins'.
Proof. induction 1; constructor; auto. apply variable_equivalent_iff; auto. Qed.

Lemma app_same_length {A} (a b c e : list A) : a ++ b = c ++ e -> List.length a = List.length c -> a = c /\ b = e.
Proof.
  revert c. induction a as [|x a IH]; intros [|y c] E L; simpl in *; try discriminate; auto.
  injection E as -> E. destruct (IH c E) as [-> ->]; auto.
Qed.

Lemma nth_error_ext' {A} (l l' : list A) : (forall n, nth_error l n = nth_error l' n) -> l = l'.
Proof.
  revert l'. induction l as [|x l IH]; intros [|y l'] H; auto.
  - specialize (H 0). discriminate.
  - specialize (H 0). discriminate.
  - pose proof (H 0) as H0. simpl in H0. injection H0 as ->. f_equal. apply IH. intros n. exact (H (S n)).
Qed.

Lemma pipe_index_ok d p : In p (pipes d) -> exists i o, pipe_index d p = Ok (i, o).
Proof.
  intros I. destruct (handle_pipes_ends d p I) as [H1 H2]. apply variable_index_ok in H1. apply variable_index_ok in H2.
  destruct H1 as [i E1], H2 as [o E2]. exists i, o. unfold pipe_index. rewrite E1, E2. auto.
Qed.

Lemma pipe_index_nth d p i o : pipe_index d p = Ok (i, o) ->
  nth_error (variables d) i = Some (fst p) /\ nth_error (variables d) o = Some (snd p).
Proof.
  unfold pipe_index, variable_index. intros H.
  destruct (index_of Nat.eqb (fst p) (variables d)) as [i'|] eqn:E1; simpl in H; [|discriminate].
  destruct (index_of Nat.eqb (snd p) (variables d)) as [o'|] eqn:E2; simpl in H; [|discriminate]. injection H as <- <-.
  apply (index_of_Some Nat.eqb Nat.eqb_eq) in E1. apply (index_of_Some Nat.eqb Nat.eqb_eq) in E2. tauto.
Qed.

Lemma length_le d d' : well_formed d -> well_formed d' -> List.length (block_variables d') = List.length (block_variables d) ->
  (forall i o, (exists p, In p (pipes d) /\ pipe_index d p = Ok (i, o)) -> exists p, In p (pipes d') /\ pipe_index d' p = Ok (i, o)) ->
  List.length (variables d) <= List.length (variables d').
Proof.
  intros WF WF' L P. destruct (le_lt_dec (List.length (variables d)) (List.length (variables d'))) as [|G]; auto. exfalso.
  destruct (nth_error (variables d) (List.length (variables d'))) as [v|] eqn:E; [|apply nth_error_None in E; lia].
  assert (In v (nonblock_variables d)) as I.
  { rewrite (variables_split d WF) in E. rewrite nth_error_app2 in E; [eapply nth_error_In; eauto|].
    rewrite (variables_split d' WF'), app_length. lia. }
  apply (nbv_In d WF) in I. destruct I as [I _]. apply in_map_iff in I. destruct I as (p & Ep & I). subst v.
  destruct (pipe_index_ok d p I) as (i & o & Pi). destruct (P i o) as (p' & I' & Pi'); [eauto|].
  apply pipe_index_nth in Pi. apply pipe_index_nth in Pi'. destruct Pi as [Pi _], Pi' as [Pi' _].
  assert (i = List.length (variables d')) as ->.
  { apply (proj1 (NoDup_nth_error (variables d)) (variables_nodup d WF)); [apply nth_error_Some; congruence|congruence]. }
  assert (List.length (variables d') < List.length (variables d')) by (apply nth_error_Some; congruence). lia.
Qed.

Section Sound.
Variables w w' : wf.
Let d := diagram w.
Let d' := diagram w'.
Hypothesis WF : well_formed d.
Hypothesis WF' : well_formed d'.
Hypothesis SHAPE : same_shape d d'.
Hypothesis KINDS : List.length (kinds w) = List.length (blocks d).
Hypothesis KINDS' : List.length (kinds w') = List.length (blocks d').
Hypothesis EQ : weq w w' = Ok true.

Definition counterpart (v : nat) : nat :=
  match index_of Nat.eqb v (variables d) with
  | Some n => nth n (variables d') 0
  | None => 0
  end.

Lemma mapM_nth {A B} (g : A -> res B) l : forall ys, mapM g l = Ok ys ->
  forall n, (forall x, nth_error l n = Some x -> exists y, nth_error ys n = Some y /\ g x = Ok y)
         /\ (forall y, nth_error ys n = Some y -> exists x, nth_error l n = Some x /\ g x = Ok y).
Proof.
  induction l as [|x l IH]; intros ys H n; simpl in H.
  - injection H as <-. destruct n; simpl; split; intros; discriminate.
  - destruct (g x) as [y|] eqn:E; cbn [bind] in H; [|discriminate].
    destruct (mapM g l) as [ys'|] eqn:E2; cbn [bind] in H; [|discriminate]. injection H as <-.
    destruct n as [|n]; simpl.
    + split; intros z Hz; injection Hz as <-; eauto.
    + apply IH; auto.
Qed.

(** pipes as pairs of positions *)
Lemma pipe_positions : forall i o,
  (exists p, In p (pipes d) /\ pipe_index d p = Ok (i, o)) <-> (exists p, In p (pipes d') /\ pipe_index d' p = Ok (i, o)).
Proof.
  pose proof EQ as EQ0. apply weq_true in EQ0. destruct EQ0 as (_ & _ & _ & E & _). fold d in E. fold d' in E. unfold equivalent_pipes in E.
  destruct (mapM _ _) as [ps|] eqn:E1; cbn [bind] in E; [|discriminate].
  destruct (mapM (fun pp => pipe_index d' (snd pp)) _) as [ps'|] eqn:E2; cbn [bind] in E; [|discriminate].
  injection E as E. rewrite set_eqb_iff in E. destruct SHAPE as [_ L].
  assert (forall n p, nth_error (pipes d) n = Some p -> exists p', nth_error (combine (pipes d) (pipes d')) n = Some (p, p')) as N1.
  { clear - L. revert L. generalize (pipes d'). induction (pipes d) as [|p l IH]; intros [|p' l'] L [|n] q Hq; simpl in *; try discriminate.
    - injection Hq as ->. eauto.
    - eapply IH; eauto. }
  assert (forall n p', nth_error (pipes d') n = Some p' -> exists p, nth_error (combine (pipes d) (pipes d')) n = Some (p, p')) as N2.
  { clear - L. revert L. generalize (pipes d'). induction (pipes d) as [|p l IH]; intros [|p' l'] L [|n] q Hq; simpl in *; try discriminate.
    - injection Hq as ->. eauto.
    - eapply IH; eauto. }
  intros i o. split; intros (p & Ip & Pp).
  - apply In_nth_error in Ip. destruct Ip as (n & Hn). destruct (N1 n p Hn) as (p' & Hc).
    destruct (proj1 (mapM_nth _ _ _ E1 n) _ Hc) as (y & Hy & Gy). cbn [fst] in Gy. rewrite Pp in Gy. injection Gy as <-.
    apply nth_error_In, E, In_nth_error in Hy. destruct Hy as (m & Hm).
    destruct (proj2 (mapM_nth _ _ _ E2 m) _ Hm) as ([q q'] & Hq & Gq). cbn [snd] in Gq.
    apply nth_error_In, in_combine_r in Hq. eauto.
  - apply In_nth_error in Ip. destruct Ip as (n & Hn). destruct (N2 n p Hn) as (p' & Hc).
    destruct (proj1 (mapM_nth _ _ _ E2 n) _ Hc) as (y & Hy & Gy). cbn [snd] in Gy. rewrite Pp in Gy. injection Gy as <-.
    apply nth_error_In, E, In_nth_error in Hy. destruct Hy as (m & Hm).
    destruct (proj2 (mapM_nth _ _ _ E1 m) _ Hm) as ([q q'] & Hq & Gq). cbn [fst] in Gq.
    apply nth_error_In, in_combine_l in Hq. eauto.
Qed.

Lemma shape_ports : List.length (block_variables d) = List.length (block_variables d').
Proof.
  destruct SHAPE as [F _]. unfold block_variables. clear - F. induction F as [|b b' bs bs' [H1 H2] F IH]; auto.
  cbn [flat_map]. rewrite !app_length, H1, H2, IH. auto.
Qed.

Lemma counterpart_nth n v : nth_error (variables d) n = Some v -> counterpart v = nth n (variables d') 0.
Proof.
  intros H. unfold counterpart. rewrite (index_of_nodup Nat.eqb Nat.eqb_eq v (variables d) n); auto.
  apply variables_nodup; auto.
Qed.

Lemma variables_length : List.length (variables d) = List.length (variables d').
Proof.
  apply Nat.le_antisymm.
  - apply (length_le d d'); auto; [symmetry; apply shape_ports|]. intros i o H. apply pipe_positions; auto.
  - apply (length_le d' d); auto; [apply shape_ports|]. intros i o H. apply pipe_positions; auto.
Qed.

Lemma variables_counterpart : variables d' = map counterpart (variables d).
Proof.
  apply nth_error_ext'. intros n. rewrite nth_error_map. pose proof variables_length as L.
  destruct (nth_error (variables d) n) as [v|] eqn:E; simpl.
  - rewrite (counterpart_nth n v E). apply nth_error_nth'. rewrite <- L. apply nth_error_Some. congruence.
  - apply nth_error_None in E. apply nth_error_None. lia.
Qed.

Lemma counterpart_separates : separates counterpart d.
Proof.
  intros u v U V E. pose proof (variables_nodup d' WF') as N. rewrite variables_counterpart in N.
  clear - U V E N. induction (variables d) as [|x l IH]; [contradiction|]. simpl in *. inversion N; subst.
  destruct U as [<-|U], V as [<-|V]; auto; exfalso.
  - apply H1. rewrite E. apply in_map; auto.
  - apply H1. rewrite <- E. apply in_map; auto.
Qed.

Lemma ports_counterpart : block_variables d' = map counterpart (block_variables d).
Proof.
  pose proof variables_counterpart as V. rewrite (variables_split d WF), (variables_split d' WF'), map_app in V.
  apply app_same_length in V; [tauto|]. rewrite map_length. symmetry. apply shape_ports.
Qed.

Lemma blocks_counterpart : blocks d' = blocks (relabel counterpart d).
Proof.
  pose proof ports_counterpart as V. unfold block_variables in V. destruct SHAPE as [F _]. cbn [blocks relabel]. revert V. generalize counterpart as c.
  clear KINDS KINDS'. intros c. induction F as [|b b' bs bs' [H1 H2] F IH]; simpl; auto. rewrite !map_app. intros V.
  apply app_same_length in V; [|rewrite !app_length, !map_length; lia]. destruct V as [V1 V2].
  apply app_same_length in V1; [|rewrite !map_length; lia]. destruct V1 as [V0 V1].
  rewrite (IH V2). destruct b'; simpl in *. congruence.
Qed.

Lemma pipes_counterpart : forall p, In p (pipes d') <-> In p (pipes (relabel counterpart d)).
Proof.
  intros p. cbn [pipes relabel]. rewrite in_map_iff. split.
  - intros I. destruct (pipe_index_ok d' p I) as (i & o & P). destruct (proj2 (pipe_positions i o)) as (q & Q & Pq); [eauto|].
    exists q. split; auto. apply pipe_index_nth in P. apply pipe_index_nth in Pq. destruct P as [P1 P2], Pq as [Q1 Q2].
    rewrite (counterpart_nth _ _ Q1), (counterpart_nth _ _ Q2), (nth_error_nth _ _ _ P1), (nth_error_nth _ _ _ P2). destruct p; auto.
  - intros (q & <- & I). destruct (pipe_index_ok d q I) as (i & o & P). destruct (proj1 (pipe_positions i o)) as (p' & Q & Pq); [eauto|].
    apply pipe_index_nth in P. apply pipe_index_nth in Pq. destruct P as [P1 P2], Pq as [Q1 Q2].
    rewrite (counterpart_nth _ _ P1), (counterpart_nth _ _ P2), (nth_error_nth _ _ _ Q1), (nth_error_nth _ _ _ Q2). destruct p'; auto.
Qed.

Lemma inputs_counterpart : inputs d' = map counterpart (inputs d).
Proof.
  rewrite <- (inputs_map d WF counterpart counterpart_separates). unfold inputs.
  rewrite (WiringProofs.variables_map d WF counterpart counterpart_separates), <- variables_counterpart.
  apply filter_ext. intros v. f_equal. unfold has_ancestor. rewrite blocks_counterpart. f_equal.
  apply eq_true_iff_eq. rewrite !existsb_exists. split; intros (p & I & H); exists p; split; auto; apply pipes_counterpart; auto.
Qed.

Lemma inputs_same : Forall2 same_variable (map (info w) (inputs d)) (map (info w') (inputs d')).
Proof.
  pose proof EQ as EQ0. apply weq_true in EQ0. destruct EQ0 as (_ & E & _).
  apply all_equivalent_forall2 in E.
  - apply equivalent_same; auto.
  - unfold input_infos. fold d. fold d'. rewrite inputs_counterpart, !map_length. auto.
Qed.

Lemma blocks_same n k k' b b' : nth_error (kinds w) n = Some k -> nth_error (kinds w') n = Some k' ->
  nth_error (blocks d) n = Some b -> nth_error (blocks d') n = Some b' ->
  same_kind (fun w w' => weq w w' = Ok true) k k' /\ Forall2 same_variable (map (info w) (b_in b)) (map (info w') (b_in b')).
Proof.
  intros K K' B B'. pose proof EQ as EQ0. apply weq_true in EQ0. destruct EQ0 as (_ & _ & E & _).
  rewrite all_res_true in E; try (rewrite block_inputs_length; auto).
  assert (kequiv k (map (info w) (b_in b)) k' (map (info w') (b_in b')) = Ok true) as H.
  { apply (E n); auto; unfold block_inputs; rewrite nth_error_map; [fold d; rewrite B|fold d'; rewrite B']; auto. }
  apply kequiv_true in H. destruct H as [A S]. split; auto.
  apply all_equivalent_forall2 in A.
  - apply equivalent_same; auto.
  - rewrite !map_length. destruct SHAPE as [F _]. clear - F B B'. revert n B B'. induction F as [|x x' l l' [H1 H2] F IH]; intros [|n] B B'; simpl in *; try discriminate.
    + injection B as <-. injection B' as <-. auto.
    + eauto.
Qed.
End Sound.

(** the values of a workflow depend on its blocks and on its pipes, in any order *)
Section Values.
Context {V : Type}.
Variables d d' : workflow.
Hypothesis BLOCKS : blocks d' = blocks d.
Hypothesis PIPES : forall p, In p (pipes d') <-> In p (pipes d).
Variable given : nat -> option V.
Variable evaluate : nat -> list V -> res (list V).

Lemma hv_pipes : forall v x, has_value d given evaluate v x -> has_value d' given evaluate v x.
Proof.
  apply (hv_mut2 V d given evaluate (fun v x _ => has_value d' given evaluate v x)
                (fun vs xs _ => have_values d' given evaluate vs xs)).
  - intros v x I E. apply hv_input; auto. destruct I as [(b & Ib & Iv & N)|[I N]].
    + left. exists b. rewrite BLOCKS. split; auto. split; auto. intros J. apply N. apply in_map_iff in J. destruct J as (p & <- & J).
      apply in_map. apply PIPES; auto.
    + right. apply in_map_iff in I. destruct I as (p & <- & J). split; [apply in_map; apply PIPES; auto|]. unfold block_variables. rewrite BLOCKS. auto.
  - intros s t x P H IH. apply hv_pipe with s; auto. apply PIPES; auto.
  - intros n b xs ys j v y N H IH Ev J Y. apply hv_block with n b xs ys j; auto. rewrite BLOCKS; auto.
  - constructor.
  - intros v x vs xs H IH Hs IHs. constructor; auto.
Qed.
End Values.

(** ** Symmetry *)
Lemma same_kind_equivalent k ins k' ins' : all_equivalent ins ins' = true ->
  same_kind (fun w w' => weq w w' = Ok true) k k' -> kequiv k ins k' ins' = Ok true.
Proof.
  intros A S.
  assert (B : class_name k = class_name k' -> base_equivalent k ins k' ins' = true).
  { intros C. unfold base_equivalent. rewrite A, C. apply String.eqb_refl. }
  destruct S; try (rewrite kequiv_workflow); try (rewrite kequiv_for_each);
    cbn [kind_equivalent model_metaclass method_type EqualityModel.number_arguments EqualityModel.number_list
      EqualityModel.number_elements EqualityModel.separator EqualityModel.indices EqualityModel.filters
      EqualityModel.attributes EqualityModel.configurations EqualityModel.attribute_name attribute_type inner_workflow for_each bind fst snd];
    rewrite B by reflexivity; rewrite ?String.eqb_refl, ?Nat.eqb_refl,
      ?(list_eqb_refl _ Z.eqb_eq), ?(list_eqb_refl _ filter_eqb_iff), ?(list_eqb_refl _ String.eqb_eq), ?(list_eqb_refl _ Nat.eqb_eq); auto.
  rewrite H0, H. cbn [bind andb]. rewrite Z.eqb_refl. auto.
Qed.

Lemma same_kind_sym (E E' : wf -> wf -> Prop) k k' :
  (forall w w', k = KWorkflow w \/ (exists ins i, k = KForEach w ins i) -> E w w' -> E' w' w) ->
  same_kind E k k' -> same_kind E' k' k.
Proof.
  intros H S. destruct S; try constructor; eauto 6.
  - rewrite all_equivalent_sym. auto.
Qed.

Lemma equivalent_pipes_sym d d' : equivalent_pipes d d' = Ok true -> equivalent_pipes d' d = Ok true.
Proof.
  unfold equivalent_pipes. intros H.
  assert (X : forall ps ps' : list (nat * nat), combine ps' ps = map (fun x => (snd x, fst x)) (combine ps ps')).
  { induction ps as [|p ps IH]; intros [|p' ps']; simpl; auto. f_equal. apply IH. }
  assert (Y : forall (g : nat * nat -> res (nat * nat)) l,
     mapM (fun pp : (nat * nat) * (nat * nat) => g (fst pp)) (map (fun x => (snd x, fst x)) l) = mapM (fun pp => g (snd pp)) l
     /\ mapM (fun pp : (nat * nat) * (nat * nat) => g (snd pp)) (map (fun x => (snd x, fst x)) l) = mapM (fun pp => g (fst pp)) l).
  { intros g. induction l as [|[p q] l [IH1 IH2]]; simpl in *; auto. rewrite IH1, IH2. auto. }
  rewrite X. rewrite (proj1 (Y (pipe_index d') _)), (proj2 (Y (pipe_index d) _)).
  destruct (mapM _ (combine (pipes d) (pipes d'))) as [ps|] eqn:E1; cbn [bind] in H; [|discriminate].
  destruct (mapM (fun pp => pipe_index d' (snd pp)) _) as [ps'|] eqn:E2; cbn [bind] in H; [|discriminate].
  cbn [bind]. rewrite set_eqb_sym. auto.
Qed.

Lemma all_res_sym (l : list kind) : (forall k, In k l -> forall ins k' ins', kequiv k ins k' ins' = Ok true -> kequiv k' ins' k ins = Ok true) ->
  forall r l' r', all_res kequiv l r l' r' = Ok true -> all_res kequiv l' r' l r = Ok true.
Proof.
  intros F. induction l as [|k l IH]; intros [|y r] [|k' l'] [|y' r'] H; simpl in *; auto.
  destruct (kequiv k y k' y') as [[|]|] eqn:E; cbn [bind] in H; try discriminate.
  rewrite (F k (or_introl eq_refl) _ _ _ E). cbn [bind]. apply IH; auto.
Qed.

Lemma weq_sym : forall w w', weq w w' = Ok true -> weq w' w = Ok true.
Proof.
  apply (wf_rec (fun w => forall w', weq w w' = Ok true -> weq w' w = Ok true)
           (fun k => forall ins k' ins', kequiv k ins k' ins' = Ok true -> kequiv k' ins' k ins = Ok true)).
  - intros d i ks ss F w' H. apply weq_true in H. destruct H as ((h & H1 & H2) & I & B & P & S).
    apply weq_true. split; [eauto|]. split; [rewrite all_equivalent_sym; auto|].
    split; [|split; [apply equivalent_pipes_sym; auto|]].
    + apply all_res_sym; auto. rewrite Forall_forall in F. auto.
    + rewrite steps_sym. auto.
  - intros w IH ins k' ins' H. apply kequiv_true in H. destruct H as [A S]. apply same_kind_equivalent; [rewrite all_equivalent_sym; auto|].
    revert S. apply same_kind_sym. intros u u' [E|(? & ? & E)]; inversion E; subst; auto.
  - intros w bins i IH ins k' ins' H. apply kequiv_true in H. destruct H as [A S]. apply same_kind_equivalent; [rewrite all_equivalent_sym; auto|].
    revert S. apply same_kind_sym. intros u u' [E|(? & ? & E)]; inversion E; subst; auto.
  - intros k N1 N2 ins k' ins' H. apply kequiv_true in H. destruct H as [A S]. apply same_kind_equivalent; [rewrite all_equivalent_sym; auto|].
    revert S. apply same_kind_sym. intros u u' [E|(? & ? & E)]; exfalso; [eapply N1; eauto|eapply N2; eauto].
Qed.

(** ** Which workflows have a hash *)
Lemma hash_steps ss : (forall s, In s ss -> st_index s <> None) -> exists hs, mapM shash ss = Ok hs.
Proof.
  intros H. apply mapM_ok_forall. intros s I. specialize (H s I). unfold hash_step. destruct (st_index s); [eauto|congruence].
Qed.

Lemma hash_steps_err ss s : In s ss -> st_index s = None -> mapM shash ss = Err TypeError.
Proof.
  induction ss as [|x ss IH]; simpl; [contradiction|]. intros [->|I] E.
  - unfold hash_step at 1. rewrite E. auto.
  - rewrite IH; auto. unfold hash_step. destruct (st_index x); auto.
Qed.

Lemma output_indices_ok d : well_formed d -> exists a, output_indices d = Ok a.
Proof.
  intros W. unfold output_indices. destruct (output d) as [o|] eqn:E; [|eauto].
  destruct (output_address d W (fun v => v) o E) as (b & k & -> & _). cbn [bind]. eauto.
Qed.

Lemma whash_cases : forall w, regular w ->
  (indexed w -> exists h, whash w = Ok h) /\ (~ indexed w -> whash w = Err TypeError).
Proof.
  apply (wf_rec (fun w => regular w -> (indexed w -> exists h, whash w = Ok h) /\ (~ indexed w -> whash w = Err TypeError))
     (fun k => (forall w, inner k w -> regular w) ->
        ((forall w, inner k w -> indexed w) -> forall ins, exists h, khash k ins = Ok h)
        /\ ((exists w, inner k w /\ ~ indexed w) -> forall ins, khash k ins = Err TypeError))).
  - intros d i ks ss F R. inversion R as [? W L RI]; subst. rewrite whash_unfold. cbn [diagram kinds steps] in *.
    destruct (output_indices_ok d W) as [a ->]. cbn [bind]. rewrite Forall_forall in F. split.
    + intros X. inversion X as [? XS XI]; subst. cbn [steps kinds] in *.
      assert (exists hs, sum_res khash ks (block_inputs (Wf d i ks ss)) = Ok hs) as [hs ->].
      { generalize (block_inputs (Wf d i ks ss)). clear - F RI XI. induction ks as [|k ks IH]; intros [|y r]; simpl; eauto.
        destruct (proj1 (F k (or_introl eq_refl) (fun w H => RI k w (or_introl eq_refl) H)) (fun w H => XI k w (or_introl eq_refl) H) y) as [h ->].
        cbn [bind]. destruct (IH (fun k H => F k (or_intror H)) (fun k w H => RI k w (or_intror H)) (fun k w H => XI k w (or_intror H)) r) as [h' ->].
        cbn [bind]. eauto. }
      cbn [bind]. destruct (hash_steps ss XS) as [ht ->]. cbn [bind]. eauto.
    + intros X.
      assert (D : (exists s, In s ss /\ st_index s = None) \/ (forall s, In s ss -> st_index s <> None)).
      { clear. induction ss as [|s ss [(x & I & E)|IH]]; [right; intros s []|left; exists x; split; auto; right; auto|].
        destruct (st_index s) eqn:E; [right|left; exists s; split; auto; left; auto]. intros x [<-|I]; [congruence|auto]. }
      assert (KS : forall l r, incl l ks -> (exists hs, sum_res khash l r = Ok hs) \/ sum_res khash l r = Err TypeError).
      { induction l as [|k l IH]; intros [|y r] I; simpl; eauto.
        assert (K : (exists h, khash k y = Ok h) \/ khash k y = Err TypeError).
        { assert (In k ks) as J by (apply I; left; auto).
          destruct (F k J (fun w H => RI k w J H)) as [K1 K2].
          destruct (kind_cases k) as [[w Kw]|Kn].
          - destruct (indexed_dec w) as [Y|Y]; [left; apply K1; intros u U; rewrite (inner_unique k u w U Kw); auto|right; apply K2; eauto].
          - left. apply K1. intros u U. exfalso. eapply Kn; eauto. }
        destruct K as [[h ->]| ->]; cbn [bind]; auto.
        destruct (IH r (fun x J => I x (or_intror J))) as [[h' ->]| ->]; cbn [bind]; eauto. }
      destruct D as [(s & I & E)|D].
      * destruct (KS ks (block_inputs (Wf d i ks ss)) (incl_refl ks)) as [[hs ->]| ->]; cbn [bind]; auto.
        rewrite (hash_steps_err ss s); auto.
      * assert (exists k w, In k ks /\ inner k w /\ ~ indexed w) as (k & w & Ik & Ikw & Nw).
        { destruct (Exists_dec (fun k => exists w, inner k w /\ ~ indexed w) ks) as [EX|NX].
          - intros k. destruct (kind_cases k) as [[w Kw]|Kn].
            + destruct (indexed_dec w) as [Y|Y]; [right; intros (u & U & NU); apply NU; rewrite (inner_unique k u w U Kw); auto|left; eauto].
            + right. intros (u & U & _). eapply Kn; eauto.
          - apply Exists_exists in EX. destruct EX as (k & Ik & w & H1 & H2). eauto 6.
          - exfalso. apply X. constructor; auto. cbn [kinds]. intros k w Ik Ikw. destruct (indexed_dec w) as [Y|Y]; auto.
            exfalso. apply NX. apply Exists_exists. eauto 6. }
        assert (sum_res khash ks (block_inputs (Wf d i ks ss)) = Err TypeError) as ->; auto.
        assert (List.length (block_inputs (Wf d i ks ss)) = List.length ks) as LB by (rewrite block_inputs_length; auto).
        revert LB. generalize (block_inputs (Wf d i ks ss)). clear - F RI KS Ik Ikw Nw.
        assert (KS' : forall k, In k ks -> forall y, (exists h, khash k y = Ok h) \/ khash k y = Err TypeError).
        { intros k0 I y. destruct (KS [k0] [y]) as [[hs E]|E]; [intros x [<-|[]]; auto| |]; simpl in E; destruct (khash k0 y); eauto;
            cbn [bind] in E; right; congruence. }
        clear KS. induction ks as [|k0 ks IH]; [contradiction|]. intros [|y r] L; [discriminate|]. cbn [sum_res].
        destruct Ik as [->|Ik].
        -- rewrite (proj2 (F k (or_introl eq_refl) (fun w H => RI k w (or_introl eq_refl) H))); eauto.
        -- destruct (KS' k0 (or_introl eq_refl) y) as [[h ->]| ->]; cbn [bind]; auto.
           rewrite IH; auto.
           ++ intros k1 H1. apply F. right; auto.
           ++ intros k1 w1 H1. apply RI. right; auto.
           ++ intros k1 H1. apply KS'. right; auto.
  - intros w IH R. destruct (IH (R w (inner_workflow_ _))) as [I1 I2]. split.
    + intros X ins. apply I1. apply X. constructor.
    + intros (u & U & N) ins. inversion U; subst. apply I2; auto.
  - intros w bins i IH R. destruct (IH (R w (inner_for_each _ _ _))) as [I1 I2]. split.
    + intros X ins. rewrite khash_for_each. destruct I1 as [h ->]; [apply X; constructor|]. cbn [bind]. eauto.
    + intros (u & U & N) ins. rewrite khash_for_each. inversion U; subst. rewrite I2; auto.
  - intros k N1 N2 R. split.
    + intros X ins. destruct k; cbn [kind_hash]; eauto. { exfalso; eapply N1; eauto. } { exfalso; eapply N2; eauto. }
    + intros (u & U & N). inversion U; subst; exfalso; [eapply N1; eauto|eapply N2; eauto].
Qed.
Lemma equivalent_pipes_ok d d' : exists b, equivalent_pipes d d' = Ok b.
Proof.
  unfold equivalent_pipes.
  destruct (mapM_ok_forall (fun pp : nat * nat * (nat * nat) => pipe_index d (fst pp)) (combine (pipes d) (pipes d'))) as [ps ->].
  { intros [p p'] J. apply in_combine_l in J. destruct (pipe_index_ok d p J) as (i & o & E). simpl. eauto. }
  cbn [bind].
  destruct (mapM_ok_forall (fun pp : nat * nat * (nat * nat) => pipe_index d' (snd pp)) (combine (pipes d) (pipes d'))) as [ps' ->].
  { intros [p p'] J. apply in_combine_r in J. destruct (pipe_index_ok d' p' J) as (i & o & E). simpl. eauto. }
  cbn [bind]. eauto.
Qed.

Lemma careful_equal : forall w, regular w -> indexed w -> careful w ->
  forall w', regular w' -> indexed w' -> exists b, weq w w' = Ok b.
Proof.
  apply (wf_rec (fun w => regular w -> indexed w -> careful w -> forall w', regular w' -> indexed w' -> exists b, weq w w' = Ok b)
    (fun k => (forall w, inner k w -> regular w /\ indexed w) -> careful_kind k -> forall ins k' ins',
       (forall w, inner k' w -> regular w /\ indexed w) -> exists b, kequiv k ins k' ins' = Ok b)).
  - intros d i ks ss F R X C w' R' X'. rewrite weq_unfold.
    destruct (proj1 (whash_cases _ R) X) as [h ->]. destruct (proj1 (whash_cases _ R') X') as [h' ->]. cbn [bind].
    destruct (negb (Z.eqb h h')); eauto. destruct (negb (all_equivalent _ _)); eauto.
    assert (exists b, all_res kequiv ks (block_inputs (Wf d i ks ss)) (kinds w') (block_inputs w') = Ok b) as [b Eb].
    { inversion R as [? _ _ RI]; inversion X as [? _ XI]; inversion C as [? CI]; subst.
      inversion R' as [? _ _ RI']; inversion X' as [? _ XI']; subst. cbn [kinds] in *. rewrite Forall_forall in F.
      generalize (block_inputs (Wf d i ks ss)) (block_inputs w'). revert RI' XI'. generalize (kinds w').
      clear - F RI XI CI. induction ks as [|k ks IH]; intros [|k' ks'] RI' XI' [|y r] [|y' r']; cbn [all_res]; eauto.
      destruct (F k (or_introl eq_refl) (fun w H => conj (RI k w (or_introl eq_refl) H) (XI k w (or_introl eq_refl) H))
        (CI k (or_introl eq_refl)) y k' y' (fun w H => conj (RI' k' w (or_introl eq_refl) H) (XI' k' w (or_introl eq_refl) H))) as [[|] ->];
        cbn [bind]; eauto.
      apply IH; intros; eauto with datatypes. }
    cbn [kinds]. rewrite Eb. cbn [bind]. destruct (negb b); eauto.
    destruct (equivalent_pipes_ok (diagram (Wf d i ks ss)) (diagram w')) as [c ->]. cbn [bind]. destruct (negb c); eauto.
  - intros w IH RX C ins k' ins' RX'. rewrite kequiv_workflow. inversion C; subst.
    destruct (base_equivalent (KWorkflow w) ins k' ins') eqn:B; eauto. apply base_class in B. destruct B as [B _].
    destruct k'; cbn in B; try discriminate; try (destruct c; discriminate); try (destruct deprecated; discriminate).
    cbn [inner_workflow bind]. destruct (RX w (inner_workflow_ w)). destruct (RX' w0 (inner_workflow_ w0)). auto.
  - intros w ins i _ _ C. inversion C.
  - intros k K1 K2 _ C ins k' ins' _. inversion C; subst; cbn [kind_equivalent]; eauto;
      try (match goal with |- exists b, (if ?c then _ else _) = _ => destruct c eqn:B end; eauto;
        apply base_class in B; destruct B as [B _];
        destruct k'; cbn in B; try discriminate; try (destruct c0; discriminate); try (destruct c; discriminate); try (destruct deprecated; discriminate);
        cbn; eauto).
    exfalso. eapply K1; eauto.
Qed.

End Hashes.

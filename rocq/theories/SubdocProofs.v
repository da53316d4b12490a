(** Proofs on the documentation of the inputs of blocks. *)
From Coq Require Import List Bool Arith String Lia.
From Verif Require Import Base BaseProofs SubdocModel SubdocSpec.
Import ListNotations.

Section Proofs.
Variable doc : Type.
Variable EMPTY FAILED : doc.
Notation block := (block doc).
Notation dict := (dict doc).
Notation get := (get doc).
Notation set := (set doc).
Notation docstring := (docstring doc EMPTY).

Lemma get_set i j x d : get i (set j x d) = if i =? j then Some x else get i d.
Proof.
  induction d as [|[k y] d IH]; cbn [SubdocModel.set]; [reflexivity|]. destruct (Nat.eqb_spec j k) as [->|N]; cbn [SubdocModel.get].
  - destruct (i =? k); reflexivity.
  - rewrite IH. destruct (Nat.eqb_spec i k) as [->|M]; [|reflexivity]. destruct (Nat.eqb_spec k j); [congruence|reflexivity].
Qed.

Lemma fold_set_get l : forall d i, ~ In i (map fst l) ->
  get i (fold_left (fun d ix => set (fst ix) (snd ix) d) l d) = get i d.
Proof.
  induction l as [|[j x] l IH]; intros d i N; cbn in *; [reflexivity|]. rewrite IH by tauto. rewrite get_set.
  destruct (Nat.eqb_spec i j); [subst; tauto|reflexivity].
Qed.
Lemma dict_of_out l i : ~ In i (map fst l) -> get i (dict_of doc l) = None.
Proof. intros N. unfold dict_of. rewrite fold_set_get by exact N. reflexivity. Qed.
Lemma dict_of_in l i x : NoDup (map fst l) -> In (i, x) l -> get i (dict_of doc l) = Some x.
Proof.
  unfold dict_of. generalize (@nil (nat * doc)) as d. induction l as [|[j y] l IH]; intros d ND I; [destruct I|]. cbn in *. inversion ND; subst.
  destruct I as [E|I]; [|apply IH; assumption]. injection E as -> ->. rewrite fold_set_get by assumption. rewrite get_set, Nat.eqb_refl. reflexivity.
Qed.
Lemma dict_of_some l i : In i (map fst l) -> exists x, get i (dict_of doc l) = Some x /\ In (i, x) l.
Proof.
  unfold dict_of. generalize (@nil (nat * doc)) as d. induction l as [|[j y] l IH]; intros d I; [destruct I|]. cbn in *.
  destruct (in_dec Nat.eq_dec i (map fst l)) as [J|J].
  - destruct (IH (set j y d) J) as (x & E & H). eauto.
  - destruct I as [->|I]; [|contradiction]. rewrite fold_set_get by exact J. rewrite get_set, Nat.eqb_refl. eauto.
Qed.

Lemma add_get wins d i : forall acc, get i (add_block_docstring doc wins acc d)
  = if in_dec Nat.eq_dec i wins then match get i d with Some x => Some x | None => get i acc end else get i acc.
Proof.
  unfold add_block_docstring. induction wins as [|j wins IH]; intros acc; cbn [fold_left]; [reflexivity|]. rewrite IH.
  destruct (in_dec Nat.eq_dec i wins) as [I|I], (in_dec Nat.eq_dec i (j :: wins)) as [J|J]; try (cbn in J; tauto).
  - destruct (get j d) as [x|] eqn:E; [|reflexivity]. rewrite get_set. destruct (Nat.eqb_spec i j) as [->|]; [rewrite E; reflexivity|reflexivity].
  - destruct J as [->|J]; [|contradiction]. destruct (get i d); [|reflexivity]. rewrite get_set, Nat.eqb_refl. reflexivity.
  - destruct (get j d); [|reflexivity]. rewrite get_set. destruct (Nat.eqb_spec i j) as [->|]; [exfalso; apply J; left; reflexivity|reflexivity].
Qed.
Lemma wb_out wins ds i : ~ In i wins -> get i (workflow_block_docstring doc ds wins) = None.
Proof.
  intros N. unfold workflow_block_docstring. assert (H : forall acc, get i acc = None -> get i (fold_left (add_block_docstring doc wins) ds acc) = None).
  { induction ds as [|d ds IH]; intros acc E; [exact E|]. cbn. apply IH. rewrite add_get. destruct (in_dec Nat.eq_dec i wins); [contradiction|exact E]. }
  apply H. reflexivity.
Qed.
Lemma wb_none wins ds i : (forall d, In d ds -> get i d = None) -> get i (workflow_block_docstring doc ds wins) = None.
Proof.
  intros N. unfold workflow_block_docstring. assert (H : forall acc, get i acc = None -> get i (fold_left (add_block_docstring doc wins) ds acc) = None).
  { induction ds as [|d ds IH]; intros acc E; [exact E|]. cbn. apply IH; [intros d' I; apply N; right; exact I|]. rewrite add_get.
    destruct (in_dec Nat.eq_dec i wins); [rewrite (N d) by (left; reflexivity)|]; exact E. }
  apply H. reflexivity.
Qed.
Lemma wb_in wins ds i x : In i wins -> (exists d, In d ds /\ get i d = Some x) -> (forall d, In d ds -> get i d = None \/ get i d = Some x) ->
  get i (workflow_block_docstring doc ds wins) = Some x.
Proof.
  intros I X U. unfold workflow_block_docstring.
  assert (H : forall acc, (get i acc = Some x \/ exists d, In d ds /\ get i d = Some x) -> get i (fold_left (add_block_docstring doc wins) ds acc) = Some x).
  { clear X. induction ds as [|d ds IH]; intros acc E; cbn.
    - destruct E as [E|(d & [] & _)]. exact E.
    - apply IH; [intros d' J; apply U; right; exact J|]. rewrite add_get. destruct (in_dec Nat.eq_dec i wins) as [_|]; [|contradiction].
      destruct (U d (or_introl eq_refl)) as [K|K]; rewrite K; [|left; reflexivity].
      destruct E as [E|(d' & [<-|J] & E)]; [left; exact E|congruence|right; eauto]. }
  apply H. right. exact X.
Qed.

Lemma docs_mapM (l : list block) : (fix go (l : list block) : res (list dict) :=
    match l with [] => Ok [] | b :: l' => let* d := docstring b in let* ds := go l' in Ok (d :: ds) end) l = mapM docstring l.
Proof. induction l as [|b l IH]; [reflexivity|]. cbn [mapM]. rewrite IH. reflexivity. Qed.
Lemma wb_eq ins w wins : docstring (WorkflowBlock doc ins w wins) = let* ds := mapM docstring w in Ok (workflow_block_docstring doc ds wins).
Proof. cbn [SubdocModel.docstring]. rewrite docs_mapM. reflexivity. Qed.
Lemma each_eq ins w wins : docstring (ForEach doc ins w wins) = let* ds := mapM docstring w in for_each_docstring doc ins wins (workflow_block_docstring doc ds wins).
Proof. cbn [SubdocModel.docstring]. rewrite docs_mapM. reflexivity. Qed.

Lemma fst_map {A} (f : A -> nat * doc) g l : (forall a, fst (f a) = g a) -> map fst (map f l) = map g l.
Proof. intros E. rewrite map_map. apply map_ext. exact E. Qed.

Lemma each_fold_out l wb i : ~ In i (map fst l) -> forall acc r,
  foldM (fun d (ij : nat * nat) => let* x := of_option KeyError (get (snd ij) wb) in Ok (set (fst ij) x d)) l acc = Ok r -> get i r = get i acc.
Proof.
  induction l as [|[j k] l IH]; intros N acc r E; cbn in *; [congruence|]. destruct (get k wb) as [x|]; [|discriminate]. cbn in E.
  rewrite (IH ltac:(tauto) _ _ E), get_set. destruct (Nat.eqb_spec i j); [subst; tauto|reflexivity].
Qed.

Lemma keys b d i x : docstring b = Ok d -> get i d = Some x -> described doc b i.
Proof.
  destruct b as [ins|ins parsed|ins w wins|ins w wins]; cbn [described inputs].
  - cbn. intros E G. injection E as <-. destruct (in_dec Nat.eq_dec i ins) as [I|I]; [exact I|]. rewrite dict_of_out in G; [discriminate|].
    rewrite (fst_map _ (fun i => i)), map_id by reflexivity. exact I.
  - cbn. destruct parsed as [l|]; [|discriminate]. cbn. intros E G. injection E as <-. destruct (in_dec Nat.eq_dec i (map fst ins)) as [I|I]; [exact I|].
    rewrite dict_of_out in G; [discriminate|]. rewrite (fst_map _ fst) by reflexivity. exact I.
  - rewrite wb_eq. destruct (mapM docstring w) as [ds|]; [|discriminate]. cbn [bind]. intros E G. injection E as <-.
    destruct (in_dec Nat.eq_dec i wins) as [I|I]; [exact I|]. rewrite wb_out in G by exact I. discriminate.
  - rewrite each_eq. destruct (mapM docstring w) as [ds|]; [|discriminate]. cbn [bind]. unfold for_each_docstring. intros E G.
    destruct (in_dec Nat.eq_dec i (map fst (combine ins wins))) as [I|I].
    + apply in_map_iff in I as ([a b] & <- & I). apply in_combine_l in I. exact I.
    + rewrite (each_fold_out _ _ _ I _ _ E) in G. discriminate.
Qed.

Lemma readable_ok b : readable doc b -> exists d, docstring b = Ok d /\ forall i, In i (inputs doc b) -> exists x, get i d = Some x.
Proof.
  destruct b as [ins|ins parsed|ins w wins|ins w wins]; cbn [readable inputs]; try tauto.
  - intros _. cbn. eexists. split; [reflexivity|]. intros i I. destruct (dict_of_some (map (fun i => (i, EMPTY)) ins) i) as (x & E & _); [|eauto].
    rewrite (fst_map _ (fun i => i)), map_id by reflexivity. exact I.
  - intros [l ->]. cbn. eexists. split; [reflexivity|]. intros i I.
    match goal with |- context [dict_of doc ?m] => destruct (dict_of_some m i) as (x & E & _) end; [|eauto].
    rewrite (fst_map _ fst) by reflexivity. exact I.
Qed.

Lemma each_fold wb : forall l, NoDup (map fst l) -> (forall ij, In ij l -> exists x, get (snd ij) wb = Some x) -> forall acc,
  exists r, foldM (fun d (ij : nat * nat) => let* x := of_option KeyError (get (snd ij) wb) in Ok (set (fst ij) x d)) l acc = Ok r /\
    forall i j, In (i, j) l -> get i r = get j wb.
Proof.
  induction l as [|[i0 j0] l IH]; intros ND H acc.
  - exists acc. split; [reflexivity|]. intros i j [].
  - destruct (H (i0, j0) (or_introl eq_refl)) as (x & E). cbn [snd] in E. inversion ND; subst.
    destruct (IH ltac:(assumption) (fun ij I => H ij (or_intror I)) (set i0 x acc)) as (r & Er & G).
    exists r. cbn [foldM fst snd]. rewrite E. cbn [of_option bind]. split; [exact Er|]. intros i j [K|K]; [|apply G, K]. injection K as -> ->.
    rewrite (each_fold_out l wb i ltac:(assumption) _ _ Er), get_set, Nat.eqb_refl. symmetry. exact E.
Qed.
Lemma each_fold_err wb : forall l ij, In ij l -> get (snd ij) wb = None -> forall acc,
  foldM (fun d (ij : nat * nat) => let* x := of_option KeyError (get (snd ij) wb) in Ok (set (fst ij) x d)) l acc = Err KeyError.
Proof.
  induction l as [|[i0 j0] l IH]; intros ij I N acc; [destruct I|]. cbn [foldM fst snd]. destruct (get j0 wb) as [x|] eqn:E; [|reflexivity].
  cbn [of_option bind]. destruct I as [<-|I]; [cbn in N; congruence|]. apply (IH ij I N).
Qed.
End Proofs.

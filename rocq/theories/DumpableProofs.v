(** Proofs on values that can be serialised. *)
From Coq Require Import ZArith Bool String Ascii List.
From Verif Require Import Base PyValue SerialModel DumpableModel DumpableSpec.
Import ListNotations.
Open Scope string_scope.
Open Scope list_scope.

Section Dumpable.
Variable non_serializable : string -> list string.
Variable jsonable : val -> bool.
Variable annotation_of_class : string -> string.
Variable other_dumped : nat -> bool.
Variable other_serializable : nat -> res bool.
Notation serialize := (serialize non_serializable jsonable annotation_of_class).
Notation is_jsonable := (is_jsonable jsonable other_dumped).
Notation key_dumped := (key_dumped jsonable other_dumped).
Notation key_serializable := (key_serializable jsonable other_serializable).
Notation is_serializable := (is_serializable non_serializable jsonable annotation_of_class other_dumped other_serializable).

Lemma seq_json (l : list val) : Forall (fun x => exists s, serialize x = Ok s /\ is_jsonable s = true) l ->
  exists r, map_seq serialize l = Ok r /\ forallb is_jsonable r = true.
Proof.
  induction 1 as [|x l (s & E & J) _ (r & R & K)]; [exists []; auto|]. exists (s :: r). cbn. rewrite E, R, J, K. auto.
Qed.
Lemma items_json (d : list (key * val)) : Forall (fun kv => key_dumped (fst kv) = true /\ exists s, serialize (snd kv) = Ok s /\ is_jsonable s = true) d ->
  exists r, map_items serialize (fun _ => true) d = Ok r /\ forallb (fun kv => key_dumped (fst kv) && is_jsonable (snd kv)) r = true.
Proof.
  induction 1 as [|[k x] d (D & s & E & J) _ (r & R & K)]; [exists []; auto|]. exists ((k, s) :: r). cbn in *. rewrite E, R, D, J, K. auto.
Qed.
Lemma seq_json_inv (l : list val) r : map_seq serialize l = Ok r -> forallb is_jsonable r = true ->
  Forall (fun x => exists s, serialize x = Ok s /\ is_jsonable s = true) l.
Proof.
  revert r. induction l as [|x l IH]; intros r H J; [constructor|]. cbn in H.
  destruct (serialize x) as [s|] eqn:E; [|discriminate]. cbn in H. destruct (map_seq serialize l) as [r'|]; [|discriminate]. cbn in H.
  injection H as <-. cbn in J. apply andb_true_iff in J. destruct J. constructor; [eauto|]. eapply IH; eauto.
Qed.
Lemma items_json_inv (d : list (key * val)) r : map_items serialize (fun _ => true) d = Ok r ->
  forallb (fun kv => key_dumped (fst kv) && is_jsonable (snd kv)) r = true ->
  Forall (fun kv => key_dumped (fst kv) = true /\ exists s, serialize (snd kv) = Ok s /\ is_jsonable s = true) d.
Proof.
  revert r. induction d as [|[k x] d IH]; intros r H J; [constructor|]. cbn in H.
  destruct (serialize x) as [s|] eqn:E; [|discriminate]. cbn in H. destruct (map_items serialize _ d) as [r'|]; [|discriminate]. cbn in H.
  injection H as <-. cbn in J. apply andb_true_iff in J. destruct J as [J K]. apply andb_true_iff in J. destruct J as [J J'].
  constructor; [cbn; eauto|]. eapply IH; eauto.
Qed.

Lemma jsonable_serialize v : is_jsonable v = true -> exists s, serialize v = Ok s /\ is_jsonable s = true.
Proof.
  induction v as [|b|z|f|s|l IH|l IH|d IH|c d IH|n b] using val_ind'; intros J; try discriminate;
    try (eexists; cbn in *; rewrite J; split; [reflexivity|exact J]).
  - cbn in J. destruct (seq_json l) as (r & R & K).
    { apply Forall_forall. intros x I. apply (proj1 (Forall_forall _ _) IH x I). apply (proj1 (forallb_forall _ _) J x I). }
    exists (VList r). cbn. rewrite R. auto.
  - cbn in J. destruct (seq_json l) as (r & R & K).
    { apply Forall_forall. intros x I. apply (proj1 (Forall_forall _ _) IH x I). apply (proj1 (forallb_forall _ _) J x I). }
    exists (VList r). cbn. rewrite R. auto.
  - cbn in J. destruct (items_json d) as (r & R & K).
    { apply Forall_forall. intros kv I. pose proof (proj1 (forallb_forall _ _) J kv I) as K. apply andb_true_iff in K. destruct K as [A B].
      split; [exact A|]. apply (proj1 (Forall_forall _ _) IH kv I). exact B. }
    exists (VDict r). cbn. rewrite R. auto.
Qed.

Lemma every_true l : every is_serializable l = Ok true <-> Forall (fun x => is_serializable x = Ok true) l.
Proof.
  induction l as [|x l IH]; cbn [every]; [split; auto|]. destruct (is_serializable x) as [[|]|e] eqn:E; cbn [bind negb].
  - rewrite IH. split; [constructor; auto|]. intros F. inversion F; auto.
  - split; [discriminate|]. intros F. inversion F. congruence.
  - split; [discriminate|]. intros F. inversion F. congruence.
Qed.
Lemma every_item_true d : every_item jsonable other_serializable is_serializable d = Ok true
  <-> Forall (fun kv => key_serializable (fst kv) = Ok true /\ is_serializable (snd kv) = Ok true) d.
Proof.
  induction d as [|[k x] d IH]; cbn [every_item]; [split; auto|]. destruct (key_serializable k) as [[|]|e] eqn:K; cbn [bind negb].
  - destruct (is_serializable x) as [[|]|e] eqn:E; cbn [bind negb].
    + rewrite IH. split; [constructor; auto|]. intros F. inversion F; auto.
    + split; [discriminate|]. intros F. inversion F as [|? ? [A B]]. cbn in *. congruence.
    + split; [discriminate|]. intros F. inversion F as [|? ? [A B]]. cbn in *. congruence.
  - split; [discriminate|]. intros F. inversion F as [|? ? [A B]]. cbn in *. congruence.
  - split; [discriminate|]. intros F. inversion F as [|? ? [A B]]. cbn in *. congruence.
Qed.
Lemma seq_true l : Forall (fun x => is_serializable x = Ok true) l -> is_serializable (VList l) = Ok true /\ is_serializable (VTuple l) = Ok true.
Proof.
  intros F. apply every_true in F. split; cbn [DumpableModel.is_serializable]; destruct (is_jsonable _); auto.
Qed.
Lemma items_true d : Forall (fun kv => key_serializable (fst kv) = Ok true /\ is_serializable (snd kv) = Ok true) d -> is_serializable (VDict d) = Ok true.
Proof. intros F. apply every_item_true in F. cbn [DumpableModel.is_serializable]. destruct (is_jsonable _); auto. Qed.
Lemma simple_keys k : simple_key k -> key_serializable k = Ok (key_dumped k).
Proof. destruct k; intros H; try reflexivity. destruct H. Qed.

Lemma serializable_iff v : simple v -> (is_serializable v = Ok true <-> exists s, serialize v = Ok s /\ is_jsonable s = true).
Proof.
  induction v as [|b|z|f|s|l IH|l IH|d IH|c d IH|n b] using val_ind'; intros S;
    try (cbn; split; [destruct (jsonable _) eqn:J; [eauto|discriminate]|intros (s' & E & J'); destruct (jsonable _); [reflexivity|discriminate]]).
  - split.
    + cbn [DumpableModel.is_serializable]. destruct (is_jsonable (VList l)) eqn:J; [intros _; apply jsonable_serialize; exact J|].
      intros H. apply every_true in H. destruct (seq_json l) as (r & R & K).
      { apply Forall_forall. intros x I. apply (proj1 (Forall_forall _ _) IH x I); [|apply (proj1 (Forall_forall _ _) H x I)].
        inversion S as [| | | | |l' F| | |]; subst. apply (proj1 (Forall_forall _ _) F x I). }
      exists (VList r). cbn. rewrite R. auto.
    + intros (s & E & J). cbn in E. destruct (map_seq serialize l) as [r|] eqn:R; [|discriminate]. cbn in E. injection E as <-.
      pose proof (seq_json_inv l r R J) as F. apply seq_true. apply Forall_forall. intros x I.
      apply (proj1 (Forall_forall _ _) IH x I); [|apply (proj1 (Forall_forall _ _) F x I)].
      inversion S as [| | | | |l' G| | |]; subst. apply (proj1 (Forall_forall _ _) G x I).
  - split.
    + cbn [DumpableModel.is_serializable]. destruct (is_jsonable (VTuple l)) eqn:J; [intros _; apply jsonable_serialize; exact J|].
      intros H. apply every_true in H. destruct (seq_json l) as (r & R & K).
      { apply Forall_forall. intros x I. apply (proj1 (Forall_forall _ _) IH x I); [|apply (proj1 (Forall_forall _ _) H x I)].
        inversion S as [| | | | | |l' F| |]; subst. apply (proj1 (Forall_forall _ _) F x I). }
      exists (VList r). cbn. rewrite R. auto.
    + intros (s & E & J). cbn in E. destruct (map_seq serialize l) as [r|] eqn:R; [|discriminate]. cbn in E. injection E as <-.
      pose proof (seq_json_inv l r R J) as F. apply seq_true. apply Forall_forall. intros x I.
      apply (proj1 (Forall_forall _ _) IH x I); [|apply (proj1 (Forall_forall _ _) F x I)].
      inversion S as [| | | | | |l' G| |]; subst. apply (proj1 (Forall_forall _ _) G x I).
  - inversion S as [| | | | | | |d' Sk Sv|]; subst. split.
    + cbn [DumpableModel.is_serializable]. destruct (is_jsonable (VDict d)) eqn:J; [intros _; apply jsonable_serialize; exact J|].
      intros H. apply every_item_true in H. destruct (items_json d) as (r & R & K).
      { apply Forall_forall. intros kv I. destruct (proj1 (Forall_forall _ _) H kv I) as [A B]. split.
        - rewrite simple_keys in A by apply (proj1 (Forall_forall _ _) Sk kv I). congruence.
        - apply (proj1 (Forall_forall _ _) IH kv I); [apply (proj1 (Forall_forall _ _) Sv kv I)|exact B]. }
      exists (VDict r). cbn. rewrite R. auto.
    + intros (s & E & J). cbn in E. destruct (map_items serialize _ d) as [r|] eqn:R; [|discriminate]. cbn in E. injection E as <-.
      pose proof (items_json_inv d r R J) as F. apply items_true. apply Forall_forall. intros kv I.
      destruct (proj1 (Forall_forall _ _) F kv I) as [A B]. split.
      * rewrite simple_keys by apply (proj1 (Forall_forall _ _) Sk kv I). congruence.
      * apply (proj1 (Forall_forall _ _) IH kv I); [apply (proj1 (Forall_forall _ _) Sv kv I)|exact B].
  - cbn [DumpableModel.is_serializable DumpableModel.is_jsonable]. destruct (serialize (VObj c d)) as [s|e]; cbn [bind].
    + split; [intros H; injection H as H; eauto|]. intros (s' & E & J). congruence.
    + split; [discriminate|]. intros (s' & E & _). discriminate.
  - inversion S.
Qed.

Lemma answer v : objectless v -> exists b, is_serializable v = Ok b.
Proof.
  induction v as [|b|z|f|s|l IH|l IH|d IH|c d IH|n b] using val_ind'; intros O;
    try (cbn; destruct (jsonable _); eauto; fail); [| | |inversion O|cbn; eauto].
  - inversion O as [| | | | | |l' F| |]; subst. cbn [DumpableModel.is_serializable]. destruct (is_jsonable _); [eauto|]. clear O.
    induction F as [|x l Ox _ IHl]; [exists true; reflexivity|]. inversion IH as [|? ? Hx IH']; subst. cbn [every].
    destruct (Hx Ox) as ([|] & ->); cbn [bind negb]; eauto.
  - inversion O as [| | | | | | |l' F|]; subst. cbn [DumpableModel.is_serializable]. destruct (is_jsonable _); [eauto|]. clear O.
    induction F as [|x l Ox _ IHl]; [exists true; reflexivity|]. inversion IH as [|? ? Hx IH']; subst. cbn [every].
    destruct (Hx Ox) as ([|] & ->); cbn [bind negb]; eauto.
  - inversion O as [| | | | | | | |d' Sk F]; subst. cbn [DumpableModel.is_serializable]. destruct (is_jsonable _); [eauto|]. clear O.
    induction F as [|[k x] l Ox _ IHl]; [exists true; reflexivity|]. inversion IH as [|? ? Hx IH']; subst. inversion Sk as [|? ? Hk Sk']; subst.
    cbn [every_item]. cbn [fst snd] in *. rewrite (simple_keys k Hk). cbn [bind]. destruct (negb _); [eauto|].
    destruct (Hx Ox) as ([|] & ->); cbn [bind negb]; eauto.
Qed.

Lemma key_left d n x : In (KOther n, x) d -> other_dumped n = false -> forall s, serialize (VDict d) = Ok s -> is_jsonable s = false.
Proof.
  intros I O s E. cbn in E. destruct (map_items serialize _ d) as [r|] eqn:R; [|discriminate]. cbn in E. injection E as <-.
  destruct (is_jsonable (VDict r)) eqn:J; [|reflexivity]. pose proof (items_json_inv d r R J) as F.
  destruct (proj1 (Forall_forall _ _) F _ I) as [A _]. cbn in A. congruence.
Qed.
End Dumpable.

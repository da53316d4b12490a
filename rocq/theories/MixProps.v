(** C74: what workflows say of themselves. *)
From Coq Require Import List String Ascii Bool Arith Lia QArith Lqa.
From Verif Require Import Base MixModel MixSpec MixProofs.
Import ListNotations.
Local Open Scope string_scope.
Local Open Scope list_scope.

(** Packages come once, have positive fractions, and the fractions sum to 1 as soon as a class is used. *)
Theorem C74_mix l : NoDup (map fst (package_mix l)) /\ (forall p f, In (p, f) (package_mix l) -> (0 < f)%Q) /\
  (package_mix l = [] <-> existsb counts l = false) /\ (existsb counts l = true -> (sum (package_mix l) == 1)%Q).
Proof.
  destruct (package_ok l (all_ok_list l)) as ((N & P & S) & E & _). split; [auto|]. split; [intros p f I; apply (proj1 (Forall_forall _ _) P (p, f) I)|]. split; [auto|].
  intros C. destruct S as [S|S]; [|auto]. apply E in S. congruence.
Qed.
(** The fraction of a package is the mean of its parts in the blocks that count: blocks count the same, a workflow
    inside as one block. *)
Theorem C74_fraction l p : (fraction (package_mix l) p == parts l p / inject_Z (Z.of_nat (number l)))%Q.
Proof. apply (package_ok l (all_ok_list l)). Qed.
(** Without workflows inside, it is the number of blocks of the package among those that use a class. *)
Theorem C74_flat l p : Forall (fun b => match b with Sub _ => False | _ => True end) l ->
  (fraction (package_mix l) p == inject_Z (Z.of_nat (List.length (filter (fun b => match b with Uses m => (package m =? p)%string | _ => false end) l)))
     / inject_Z (Z.of_nat (List.length (filter (fun b => match b with Uses _ => true | _ => false end) l))))%Q.
Proof.
  intros F. rewrite C74_fraction. assert (A : (parts l p == inject_Z (Z.of_nat (List.length (filter (fun b => match b with Uses m => (package m =? p)%string | _ => false end) l))))%Q).
  { induction F as [|b l B F IH]; [reflexivity|]. cbn [parts filter]. destruct b as [m|s|]; [|destruct B|cbn [part]; rewrite IH; lra]. cbn [part]. destruct (package m =? p)%string; rewrite IH; [|lra].
    cbn [List.length]. symmetry. apply Qnat_S. }
  assert (B : number l = List.length (filter (fun b => match b with Uses _ => true | _ => false end) l)).
  { unfold number. clear A. induction F as [|b l B F IH]; [reflexivity|]. cbn [filter]. destruct b as [m|s|]; [cbn; f_equal; exact IH|destruct B|exact IH]. }
  rewrite A, B. reflexivity.
Qed.
(** Packages come in the order of the blocks that use them first. *)
Theorem C74_order l module : map fst (package_mix (l ++ [Uses module])) =
  if in_dec string_dec (package module) (map fst (package_mix l)) then map fst (package_mix l) else map fst (package_mix l) ++ [package module].
Proof.
  unfold package_mix. rewrite !keys_dimensionless. assert (A : forall l m, collect_mix (l ++ [Uses module]) m = add (collect_mix l m) (package module) 1%Q).
  { clear l. induction l as [|b l IH]; intros m; [reflexivity|]. cbn [app collect_mix]. apply IH. }
  rewrite A, keys_add. destruct (existsb _ _) eqn:E; destruct (in_dec _ _ _) as [I|N]; auto; [apply existsb_in in E; contradiction|apply existsb_in in I; congruence].
Qed.
(** Expected of a mix of packages: it tells what is used.  Blocks without package_mix, as a loop over a block that
    instantiates a class, do not count. *)
Theorem C74_loops_refuted l : Forall (fun b => b = Other) l -> package_mix l = [].
Proof. intros F. apply C74_mix. induction F as [|b l -> F IH]; [reflexivity|exact IH]. Qed.
(** The package is what comes before the first dot. *)
Theorem C74_package a b : ~ In "."%char (list_ascii_of_string a) -> package a = a /\ package (a ++ "." ++ b) = a.
Proof.
  induction a as [|c a IH]; intros N; [split; reflexivity|]. cbn [list_ascii_of_string] in N. destruct IH as [E1 E2]; [intros I; apply N; right; auto|].
  assert (K : (c =? ".")%char = false) by (apply Ascii.eqb_neq; intros ->; apply N; left; auto). change (String c a ++ "." ++ b)%string with (String c (a ++ "." ++ b)%string). cbn [package]. rewrite K, E1, E2. auto.
Qed.

(** Expected of is_valid: it tells whether the types of pipes agree.  It never says no, and when types have no
    attribute type_, as classes, it raises AttributeError as soon as there is a pipe. *)
Theorem C74_valid_refuted {T} (attribute : T -> option T) same pipes :
  is_valid attribute same pipes <> Ok false /\ ((forall t, attribute t = None) -> pipes <> [] -> is_valid attribute same pipes = Err AttributeError) /\
  (is_valid attribute same pipes = Ok true <-> forall u d, In (u, d) pipes -> exists u' d', attribute u = Some u' /\ attribute d = Some d' /\ (same u' d' = true \/ exists u'', attribute u' = Some u'')).
Proof.
  split; [|split].
  - induction pipes as [|[u d] pipes IH]; cbn [is_valid]; [discriminate|]. destruct (attribute u) as [u'|]; cbn [of_option bind]; [|discriminate]. destruct (attribute d) as [d'|]; cbn [of_option bind]; [|discriminate].
    destruct (same u' d'); [exact IH|]. destruct (attribute u'); cbn [of_option bind]; [exact IH|discriminate].
  - intros N NE. destruct pipes as [|[u d] pipes]; [congruence|]. cbn [is_valid]. rewrite N. reflexivity.
  - induction pipes as [|[u d] pipes IH]; cbn [is_valid]; [split; [intros _ u d []|reflexivity]|]. split.
    + destruct (attribute u) as [u'|] eqn:U; cbn [of_option bind]; [|discriminate]. destruct (attribute d) as [d'|] eqn:D; cbn [of_option bind]; [|discriminate]. intros E.
      assert (R : is_valid attribute same pipes = Ok true /\ (same u' d' = true \/ exists u'', attribute u' = Some u'')).
      { destruct (same u' d'); [auto|]. destruct (attribute u') as [u''|]; cbn [of_option bind] in E; [|discriminate]. split; [exact E|]. right. eauto. }
      destruct R as [R S]. intros x y [F|I]; [injection F as <- <-; eauto 6|]. apply (proj1 IH R x y I).
    + intros H. destruct (H u d (or_introl eq_refl)) as (u' & d' & U & D & S). rewrite U, D. cbn [of_option bind]. assert (R : is_valid attribute same pipes = Ok true) by (apply IH; intros; apply H; right; auto).
      rewrite R. destruct (same u' d'); [reflexivity|]. destruct S as [S|(u'' & ->)]; [discriminate|reflexivity].
Qed.

(** Expected of export_format_from_selector: it finds the format of a block.  It never gives one. *)
Theorem C74_export_refuted {F} (formats : list F) selector : (formats = [] -> export_format_from_selector formats selector = Err ValueError) /\ (formats <> [] -> export_format_from_selector formats selector = Err TypeError).
Proof. destruct formats; split; intros; try reflexivity; congruence. Qed.

(** The pipes between two blocks are those that go out of the one and into the other, in the order of the outputs. *)
Theorem C74_pipes outgoing incoming p : In p (pipes_between_blocks outgoing incoming) <-> In (Some p) outgoing /\ In (Some p) incoming.
Proof.
  unfold pipes_between_blocks. rewrite in_flat_map. assert (X : forall p, existsb (fun q => match q with Some q => (q =? p)%nat | None => false end) incoming = true <-> In (Some p) incoming).
  { intros r. rewrite existsb_exists. split; [intros ([q|] & I & E); [apply Nat.eqb_eq in E; subst; auto|discriminate]|intros I; exists (Some r); rewrite Nat.eqb_refl; auto]. }
  split.
  - intros ([q|] & I & J); [|destruct J]. destruct (existsb _ incoming) eqn:E; [|destruct J]. destruct J as [<-|[]]. split; [auto|]. apply X. exact E.
  - intros [O I]. exists (Some p). split; [auto|]. rewrite (proj2 (X p) I). left. reflexivity.
Qed.
Theorem C74_pipes_order o1 o2 incoming : pipes_between_blocks (o1 ++ o2) incoming = pipes_between_blocks o1 incoming ++ pipes_between_blocks o2 incoming.
Proof. apply flat_map_app. Qed.

Definition example_workflow : list block :=
  [Uses "volmdlr.core"; Other; Uses "dessia_common.models.x"; Sub [Uses "volmdlr"; Other; Uses "scipy.linalg"; Sub [Other]]; Uses "volmdlr.faces"].
Example C74_example : (map fst (package_mix example_workflow) = ["volmdlr"; "dessia_common"; "scipy"])%list /\ (fraction (package_mix example_workflow) "volmdlr" == 5 # 8)%Q /\ (fraction (package_mix example_workflow) "scipy" == 1 # 8)%Q.
Proof. repeat split; reflexivity. Qed.
Example C74_pipes_example : pipes_between_blocks [Some 4; None; Some 2; Some 7]%nat [None; Some 7; Some 4]%nat = [4; 7]%nat.
Proof. reflexivity. Qed.

Print Assumptions C74_mix.
Print Assumptions C74_fraction.
Print Assumptions C74_flat.
Print Assumptions C74_loops_refuted.
Print Assumptions C74_package.
Print Assumptions C74_valid_refuted.
Print Assumptions C74_export_refuted.
Print Assumptions C74_pipes.
Print Assumptions C74_pipes_order.
Print Assumptions C74_order.

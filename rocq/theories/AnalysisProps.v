(** C79: the analysis of the pointers of an object. *)
From Coq Require Import List String Bool Arith Lia Permutation.
From Verif Require Import Base AnalysisModel.
Import ListNotations.
Local Open Scope string_scope.
Local Open Scope list_scope.

(** The class of an element that can be reached; the others have none. *)
Definition class_of (class_at : string -> res string) (path : string) : option string := match class_at path with Ok c => Some c | Err _ => None end.
(** The edges of the graph that are counted: those between elements of the object. *)
Definition inside (e : string * string) : bool := negb (String.eqb (fst e) "#").
(** How many edges lead to an element of a class, and from one class to another. *)
Definition uses (class_at : string -> res string) (edges : list (string * string)) (c : string) : nat :=
  List.length (filter (fun e => inside e && oeqb (class_of class_at (snd e)) (Some c)) edges).
Definition compositions (class_at : string -> res string) (edges : list (string * string)) (c1 : string) (c2 : option string) : nat :=
  List.length (filter (fun e => inside e && (oeqb (class_of class_at (fst e)) (Some c1) && oeqb (class_of class_at (snd e)) c2)) edges).
(** What a dictionary of numbers says; a missing key is no count. *)
Definition number (k : string) (d : list (string * nat)) : nat := match dict_get String.eqb k d with Some n => n | None => 0 end.
Definition number2 (c1 : string) (c2 : option string) (d : list (option string * list (string * nat))) : nat :=
  match dict_get oeqb c2 d with Some i => number c1 i | None => 0 end.

Local Lemma oeqb_eq a b : oeqb a b = true <-> a = b.
Proof. destruct a, b; cbn; try (split; congruence). rewrite String.eqb_eq. split; congruence. Qed.
Local Lemma oeqb_refl a : oeqb a a = true.
Proof. apply oeqb_eq. reflexivity. Qed.
Local Lemma get_set {K A} (eqb : K -> K -> bool) (H : forall a b, eqb a b = true <-> a = b) k j (a : A) d :
  dict_get eqb j (dict_set eqb k a d) = if eqb j k then Some a else dict_get eqb j d.
Proof.
  induction d as [|[i b] d IH]; cbn [dict_set dict_get].
  - destruct (eqb j k); reflexivity.
  - destruct (eqb k i) eqn:E; cbn [dict_get].
    + apply H in E. subst i. destruct (eqb j k); reflexivity.
    + rewrite IH. destruct (eqb j i) eqn:F; [|reflexivity]. apply H in F. subst i. destruct (eqb j k) eqn:G; [|reflexivity]. apply H in G. subst. rewrite (proj2 (H k k) eq_refl) in E. discriminate.
Qed.

Section C79.
Variable class_at : string -> res string.
(** What is not an AttributeError stops the analysis: elements are reached or raise AttributeError. *)
Hypothesis attribute_errors : forall p e, class_at p = Err e -> e = AttributeError.
Notation class_of := (class_of class_at).
Notation uses := (uses class_at).
Notation compositions := (compositions class_at).
Notation edge_step := (edge_step class_at).

Definition remembers (m : list (string * string)) : Prop := forall p c, dict_get String.eqb p m = Some c -> class_at p = Ok c.
Local Lemma find_ok p m : remembers m -> exists m', find_class class_at p m = Ok (class_of p, m') /\ remembers m'.
Proof.
  intros R. unfold find_class, AnalysisProps.class_of. destruct (dict_get String.eqb p m) as [c|] eqn:G.
  - rewrite (R p c G). eauto.
  - destruct (class_at p) as [c|e] eqn:C.
    + eexists. split; [reflexivity|]. intros q d. rewrite get_set by apply String.eqb_eq. destruct (String.eqb q p) eqn:E; [|apply R]. apply String.eqb_eq in E. subst. intros X. injection X as <-. exact C.
    + rewrite (attribute_errors p e C). eauto.
Qed.
Local Lemma count_number o c d : number c (count_class o d) = number c d + (if oeqb o (Some c) then 1 else 0).
Proof.
  unfold count_class, number. destruct o as [s|]; cbn [oeqb]; [|lia]. rewrite get_set by apply String.eqb_eq. rewrite (String.eqb_sym s c). destruct (String.eqb c s) eqn:E; [|lia]. apply String.eqb_eq in E. subst. reflexivity.
Qed.
Local Lemma count_keys o c d : (forall n, dict_get String.eqb c d = Some n -> n > 0) -> forall n, dict_get String.eqb c (count_class o d) = Some n -> n > 0.
Proof.
  intros H n. unfold count_class. destruct o as [s|]; [|apply H]. rewrite get_set by apply String.eqb_eq. destruct (String.eqb c s); [intros E; injection E as <-; lia|apply H].
Qed.
Local Lemma compose_ok c1 c2 d : ~ (c1 = None /\ c2 <> None) -> exists d', compose c1 c2 d = Ok d' /\
  forall a b, number2 a b d' = number2 a b d + (if negb (oeqb c1 c2) && (oeqb c1 (Some a) && oeqb c2 b) then 1 else 0).
Proof.
  intros H. unfold compose. destruct (oeqb c1 c2) eqn:E; [exists d; split; [reflexivity|intros; cbn; lia]|]. destruct c1 as [s|]; [|exfalso; apply H; split; [auto|intros ->; discriminate]].
  set (inner := match dict_get oeqb c2 d with Some i => i | None => [] end).
  exists (dict_set oeqb c2 (dict_set String.eqb s (number s inner + 1) inner) d). split.
  - unfold number. destruct (dict_get String.eqb s inner) as [n|]; reflexivity.
  - intros a b. unfold number2 at 1. rewrite (get_set oeqb oeqb_eq). cbn [negb andb oeqb]. destruct (oeqb b c2) eqn:B.
    + apply oeqb_eq in B. subst b. rewrite oeqb_refl, andb_true_r. unfold number at 1. rewrite get_set by apply String.eqb_eq. rewrite (String.eqb_sym s a). assert (N : number2 a c2 d = number a inner) by (unfold number2, inner; destruct (dict_get oeqb c2 d); reflexivity). destruct (String.eqb a s) eqn:A.
      * apply String.eqb_eq in A. subst. rewrite N. reflexivity.
      * rewrite N. unfold number. lia.
    + assert (oeqb c2 b = false) as ->. { destruct (oeqb c2 b) eqn:X; [|reflexivity]. apply oeqb_eq in X. subst. rewrite oeqb_refl in B. discriminate. } rewrite andb_false_r. unfold number2. destruct (dict_get oeqb b d); lia.
Qed.
Local Lemma compose_err c2 d : c2 <> None -> compose None c2 d = Err KeyError.
Proof. intros H. unfold compose. destruct (oeqb None c2) eqn:E; [apply oeqb_eq in E; congruence|reflexivity]. Qed.

(** An edge from an element that cannot be reached to one that can. *)
Definition broken (e : string * string) : Prop := fst e <> "#" /\ class_of (fst e) = None /\ class_of (snd e) <> None.
Local Lemma step_ok s e : remembers (class_from_path s) -> ~ broken e -> exists s', edge_step s e = Ok s' /\ remembers (class_from_path s') /\
  (forall c, number c (class_number s') = number c (class_number s) + (if inside e && oeqb (class_of (snd e)) (Some c) then 1 else 0)) /\
  (forall a b, number2 a b (composed_by s') = number2 a b (composed_by s) + (if inside e && (negb (oeqb (class_of (fst e)) (class_of (snd e))) && (oeqb (class_of (fst e)) (Some a) && oeqb (class_of (snd e)) b)) then 1 else 0)).
Proof.
  intros R N. destruct e as [p1 p2]. unfold edge_step, AnalysisModel.edge_step, inside. cbn [fst snd]. destruct (String.eqb p1 "#") eqn:E.
  - exists s. cbn [negb andb]. repeat split; auto; intros; lia.
  - apply String.eqb_neq in E. destruct (find_ok p2 _ R) as (m & F & R'). rewrite F. cbn [bind fst snd]. destruct (find_ok p1 _ R') as (m' & F' & R''). rewrite F'. cbn [bind fst snd].
    destruct (compose_ok (class_of p1) (class_of p2) (composed_by s)) as (d & Cd & Nd). { intros [A B]. apply N. repeat split; auto. }
    rewrite Cd. cbn [bind]. eexists. split; [reflexivity|]. cbn [class_from_path class_number composed_by negb andb]. split; [exact R''|]. split; [|exact Nd]. intros c. apply count_number.
Qed.
Local Lemma step_err s e : remembers (class_from_path s) -> broken e -> edge_step s e = Err KeyError.
Proof.
  intros R (E & A & B). destruct e as [p1 p2]. cbn [fst snd] in *. unfold AnalysisModel.edge_step. apply String.eqb_neq in E. rewrite E. destruct (find_ok p2 _ R) as (m & F & R'). rewrite F. cbn [bind fst snd]. destruct (find_ok p1 _ R') as (m' & F' & R''). rewrite F'. cbn [bind fst snd]. rewrite A, compose_err by exact B. reflexivity.
Qed.
Local Lemma broken_dec e : broken e \/ ~ broken e.
Proof.
  unfold broken. destruct (string_dec (fst e) "#") as [->|N]; [right; intros [H _]; auto|]. destruct (class_of (fst e)); [right; intros (_ & H & _); discriminate|]. destruct (class_of (snd e)); [left; repeat split; auto; discriminate|right; intros (_ & _ & H); auto].
Qed.
Local Lemma fold_ok l : forall s, remembers (class_from_path s) -> (forall e, In e l -> ~ broken e) -> exists s', foldM edge_step l s = Ok s' /\
  (forall c, number c (class_number s') = number c (class_number s) + uses l c) /\
  (forall a b, Some a <> b -> number2 a b (composed_by s') = number2 a b (composed_by s) + compositions l a b) /\
  (forall a, number2 a (Some a) (composed_by s') = number2 a (Some a) (composed_by s)).
Proof.
  induction l as [|e l IH]; intros s R N; cbn [foldM].
  - exists s. cbn. repeat split; intros; lia.
  - destruct (step_ok s e R (N e (or_introl eq_refl))) as (s1 & E & R1 & C1 & P1). rewrite E. cbn [bind]. destruct (IH s1 R1 (fun e' I => N e' (or_intror I))) as (s2 & E2 & C2 & P2 & P3). exists s2. split; [exact E2|]. unfold AnalysisProps.uses, AnalysisProps.compositions in *. cbn [filter]. split; [|split].
    + intros c. rewrite C2, C1. destruct (inside e && oeqb (class_of (snd e)) (Some c)); cbn [List.length]; lia.
    + intros a b D. rewrite (P2 a b D), P1. destruct (inside e); cbn [andb]; [|lia]. destruct (oeqb (class_of (fst e)) (Some a)) eqn:A; cbn [andb]; [|rewrite andb_false_r; lia]. destruct (oeqb (class_of (snd e)) b) eqn:B; cbn [andb]; [|rewrite andb_false_r; lia]. apply oeqb_eq in A, B. rewrite A, B. destruct (oeqb (Some a) b) eqn:X; [apply oeqb_eq in X; contradiction|]. cbn [negb andb List.length]. lia.
    + intros a. rewrite P3, P1. destruct (inside e); cbn [andb]; [|lia]. destruct (oeqb (class_of (fst e)) (Some a)) eqn:A; cbn [andb]; [|rewrite andb_false_r; lia]. destruct (oeqb (class_of (snd e)) (Some a)) eqn:B; cbn [andb]; [|rewrite andb_false_r; lia]. apply oeqb_eq in A, B. rewrite A, B, oeqb_refl. cbn. lia.
Qed.
Local Lemma fold_err l : forall s, remembers (class_from_path s) -> (exists e, In e l /\ broken e) -> foldM edge_step l s = Err KeyError.
Proof.
  induction l as [|e l IH]; intros s R (b & I & B); [destruct I|]. cbn [foldM]. destruct (broken_dec e) as [Be|Ne].
  - rewrite (step_err s e R Be). reflexivity.
  - destruct (step_ok s e R Ne) as (s1 & E & R1 & _). rewrite E. cbn [bind]. apply IH; [exact R1|]. destruct I as [->|I]; [contradiction|]. eauto.
Qed.

(** The numbers are those of the graph: of the edges that lead to a class, and of those from one class to another one. *)
Theorem C79_numbers edges numbers composed : pointers_analysis class_at edges = Ok (numbers, composed) ->
  (forall c, number c numbers = uses edges c) /\ (forall c1 c2, Some c1 <> c2 -> number2 c1 c2 composed = compositions edges c1 c2) /\ (forall c, number2 c (Some c) composed = 0).
Proof.
  unfold pointers_analysis. assert (R : remembers (class_from_path (State [] [] []))) by (intros p c; discriminate).
  assert (Dec : (forall e, In e edges -> ~ broken e) \/ exists e, In e edges /\ broken e).
  { induction edges as [|e l IH]; [left; intros e []|]. destruct (broken_dec e) as [B|B]; [right; exists e; split; [left; auto|auto]|]. destruct IH as [H|(b & I & H)]; [left; intros x [<-|I]; auto|right; exists b; split; [right; auto|auto]]. }
  destruct Dec as [N|N].
  - destruct (fold_ok edges _ R N) as (s & E & A & B & C). rewrite E. cbn [bind]. intros X. injection X as <- <-. split; [exact A|]. split; [exact B|exact C].
  - rewrite (fold_err edges _ R N). discriminate.
Qed.
(** The analysis fails exactly when an element that cannot be reached leads to one that can, with KeyError.  Expected was
    that elements that cannot be reached are left out. *)
Theorem C79_unreachable_refuted edges : (pointers_analysis class_at edges = Err KeyError <-> exists e, In e edges /\ broken e) /\ (forall e, pointers_analysis class_at edges = Err e -> e = KeyError).
Proof.
  unfold pointers_analysis. assert (R : remembers (class_from_path (State [] [] []))) by (intros p c; discriminate).
  assert (Dec : (forall e, In e edges -> ~ broken e) \/ exists e, In e edges /\ broken e).
  { induction edges as [|e l IH]; [left; intros e []|]. destruct (broken_dec e) as [B|B]; [right; exists e; split; [left; auto|auto]|]. destruct IH as [H|(b & I & H)]; [left; intros x [<-|I]; auto|right; exists b; split; [right; auto|auto]]. }
  destruct Dec as [N|N].
  - destruct (fold_ok edges _ R N) as (s & E & _). rewrite E. cbn [bind]. split; [|discriminate]. split; [discriminate|]. intros (e & I & B). exfalso. apply (N e I B).
  - rewrite (fold_err edges _ R N). cbn [bind]. split; [tauto|congruence].
Qed.
(** A class is in the dictionary exactly when something leads to one of its objects. *)
Theorem C79_classes edges numbers composed c : pointers_analysis class_at edges = Ok (numbers, composed) -> ((exists n, dict_get String.eqb c numbers = Some n) <-> uses edges c > 0).
Proof.
  intros E. destruct (C79_numbers edges numbers composed E) as (A & _). rewrite <- A. clear A. unfold number. assert (P : forall n, dict_get String.eqb c numbers = Some n -> n > 0).
  { unfold pointers_analysis in E. destruct (foldM edge_step edges (State [] [] [])) as [s|e] eqn:Fo; cbn [bind] in E; [|discriminate]. injection E as <- _. revert Fo. assert (H : forall n, dict_get String.eqb c (class_number (State [] [] [])) = Some n -> n > 0) by discriminate. revert H. generalize (State [] [] []). induction edges as [|[p1 p2] l IH]; intros s0 H Fo; cbn [foldM] in Fo; [injection Fo as <-; exact H|]. destruct (edge_step s0 (p1, p2)) as [s1|e] eqn:E1; cbn [bind] in Fo; [|discriminate]. apply (IH s1); [|exact Fo]. unfold AnalysisModel.edge_step in E1. destruct (String.eqb p1 "#"); [injection E1 as <-; exact H|]. destruct (find_class class_at p2 (class_from_path s0)) as [r2|e]; cbn [bind] in E1; [|discriminate]. destruct (find_class class_at p1 (snd r2)) as [r1|e]; cbn [bind] in E1; [|discriminate]. destruct (compose (fst r1) (fst r2) (composed_by s0)) as [d|e]; cbn [bind] in E1; [|discriminate]. injection E1 as <-. cbn [class_number]. apply count_keys, H. }
  destruct (dict_get String.eqb c numbers) as [n|]; split; intros H; [apply P; reflexivity|eauto|destruct H; discriminate|lia].
Qed.
(** The order of the edges does not matter. *)
Theorem C79_order edges edges' n c n' c' : Permutation edges edges' -> pointers_analysis class_at edges = Ok (n, c) -> pointers_analysis class_at edges' = Ok (n', c') ->
  (forall k, number k n = number k n') /\ forall c1 c2, number2 c1 c2 c = number2 c1 c2 c'.
Proof.
  intros P E E'. apply C79_numbers in E, E'. destruct E as (A & B & C), E' as (A' & B' & C').
  assert (L : forall f, List.length (filter f edges) = List.length (filter f edges')).
  { intros f. clear -P. induction P; cbn [filter]; try destruct (f x); try destruct (f y); cbn [List.length]; congruence. }
  split; [intros k; rewrite A, A'; apply L|]. intros c1 c2. destruct c2 as [c2|]; [|rewrite B, B' by discriminate; apply L]. destruct (string_dec c1 c2) as [->|D]; [rewrite C, C'; reflexivity|]. rewrite B, B' by congruence. apply L.
Qed.
End C79.

(** A car with two wheels, one of them the spare wheel by reference. *)
Definition example_class (p : string) : res string :=
  if String.eqb p "#/wheels" then Ok "builtins.list" else if String.eqb p "#/hidden" then Err AttributeError
  else Ok "cars.Wheel".
Definition example_edges := [("#", "#/wheels"); ("#/wheels", "#/wheels/0"); ("#/wheels", "#/wheels/1"); ("#/spare", "#/wheels/1"); ("#/wheels/0", "#/hidden")].
Example C79_example : pointers_analysis example_class example_edges = Ok ([("cars.Wheel", 3)], [(Some "cars.Wheel", [("builtins.list", 2)]); (None, [("cars.Wheel", 1)])]).
Proof. reflexivity. Qed.
Example C79_example_fails : pointers_analysis example_class (example_edges ++ [("#/hidden", "#/hidden/0")]) = Err KeyError.
Proof. reflexivity. Qed.

Print Assumptions C79_numbers.
Print Assumptions C79_unreachable_refuted.
Print Assumptions C79_classes.
Print Assumptions C79_order.

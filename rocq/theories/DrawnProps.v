(** C77: graphs drawn in a browser. *)
From Coq Require Import List String Bool Arith ZArith Lia.
From Verif Require Import Base DrawnModel DrawnSpec.
Import ListNotations.
Local Open Scope string_scope.
Local Open Scope list_scope.
Local Open Scope nat_scope.

Local Lemma node_eqb_eq a b : node_eqb a b = true <-> a = b.
Proof.
  destruct a, b; cbn; try (split; [discriminate|congruence]).
  - rewrite String.eqb_eq. split; congruence.
  - rewrite Z.eqb_eq. split; congruence.
  - rewrite Nat.eqb_eq. split; congruence.
Qed.
Local Lemma index_in l n : In n l -> exists k, index_of node_eqb n l = Some k /\ nth_error l k = Some n.
Proof.
  induction l as [|m l IH]; intros I; [destruct I|]. cbn [index_of]. destruct (node_eqb n m) eqn:E.
  - apply node_eqb_eq in E. subst. exists 0. auto.
  - destruct I as [->|I]; [assert (node_eqb n n = true) by (apply node_eqb_eq; auto); congruence|]. destruct (IH I) as (k & K & N). exists (S k). rewrite K. auto.
Qed.

Section C77.
Context {D : Type}.
Variable pos : node -> option D.
Variable str_int : Z -> string.
Notation draw := (networkx_to_visjs_data pos str_int).

Local Lemma labels_ok n a : ~ nameless a -> exists t, text str_int n a t /\ labels str_int n a = Ok (if negb (match name a with None => true | _ => false end) then t else if 10 <? String.length t then "[ ]" else t, match name a with None => Some t | Some _ => None end).
Proof.
  intros H. unfold nameless in H. unfold labels. destruct (name a) as [s|] eqn:N, (label a) as [l|] eqn:L; cbn [negb of_option bind].
  - exists (s ++ l)%string. split; [apply text_labelled; auto|reflexivity].
  - exists s. split; [apply text_named; auto|reflexivity].
  - exfalso. apply H. split; [auto|discriminate].
  - exists (own_label str_int n). split; [|reflexivity]. destruct n; [apply text_string|apply text_integer|apply text_other]; auto.
Qed.
Local Lemma text_fun n a t t' : text str_int n a t -> text str_int n a t' -> t = t'.
Proof. intros A B. destruct A; inversion B; subst; congruence. Qed.
Local Lemma nodes_ok l : forall i, (forall n a, In (n, a) l -> ~ nameless a) -> exists r, draw_nodes pos str_int i l = Ok r /\ List.length r = List.length l /\
  forall k n a, nth_error l k = Some (n, a) -> exists d, nth_error r k = Some d /\ draw_node pos str_int (i + k) n a = Ok d.
Proof.
  induction l as [|[n a] l IH]; intros i H; cbn [draw_nodes].
  - exists []. repeat split. intros [|k]; discriminate.
  - destruct (labels_ok n a (H n a (or_introl eq_refl))) as (t & T & E). unfold draw_node at 1. rewrite E. cbn [bind]. destruct (IH (S i)) as (r & R & Len & K); [intros; eapply H; right; eauto|]. rewrite R. cbn [bind]. eexists. split; [reflexivity|]. split; [cbn [List.length]; congruence|].
    intros [|k] m b Nk; cbn [nth_error] in *.
    + injection Nk as <- <-. eexists. split; [reflexivity|]. unfold draw_node. rewrite E, Nat.add_0_r. reflexivity.
    + destruct (K k m b Nk) as (d & Kd & Ed). exists d. split; [exact Kd|]. replace (i + S k) with (S i + k) by lia. exact Ed.
Qed.
Local Lemma nodes_err l : forall i, (exists n a, In (n, a) l /\ nameless a) -> draw_nodes pos str_int i l = Err KeyError.
Proof.
  induction l as [|[n a] l IH]; intros i (m & b & I & H); [destruct I|]. cbn [draw_nodes]. destruct (name a) as [s|] eqn:N.
  - assert (NN : ~ nameless a) by (intros [X _]; congruence). destruct (labels_ok n a NN) as (t & _ & E). unfold draw_node at 1. rewrite E. cbn [bind]. rewrite IH; [reflexivity|]. destruct I as [E'|I]; [injection E' as <- <-; contradiction|]. exists m, b. auto.
  - destruct (label a) as [l'|] eqn:L.
    + unfold draw_node, labels. rewrite N, L. reflexivity.
    + assert (NN : ~ nameless a) by (intros [_ X]; congruence). destruct (labels_ok n a NN) as (t & _ & E). unfold draw_node at 1. rewrite E. cbn [bind]. rewrite IH; [reflexivity|]. destruct I as [E'|I]; [injection E' as <- <-; contradiction|]. exists m, b. auto.
Qed.
Local Lemma draw_edge_ok g e : proper g -> In e (edges g) -> exists d, draw_edge g e = Ok d /\
  option_map fst (nth_error (nodes g) (from d)) = Some (tail e) /\ option_map fst (nth_error (nodes g) (to d)) = Some (head e) /\ e_color d = edge_color e /\
  e_arrows d = (if directed g then match head_type e with Some t => Typed t | None => To end else NoArrows).
Proof.
  intros [_ P] I. destruct (P e I) as [T H]. destruct (index_in _ _ T) as (k & K & Nk), (index_in _ _ H) as (j & J & Nj). unfold draw_edge. rewrite K, J. cbn [of_option bind]. eexists. split; [reflexivity|]. cbn. rewrite nth_error_map in Nk, Nj. auto.
Qed.
Local Lemma edges_ok g l : proper g -> (forall e, In e l -> In e (edges g)) -> exists r, mapM (draw_edge g) l = Ok r /\ Forall2 (fun e d => draw_edge g e = Ok d) l r.
Proof.
  intros P. induction l as [|e l IH]; intros H; [exists []; split; [reflexivity|constructor]|]. destruct (draw_edge_ok g e P (H e (or_introl eq_refl))) as (d & E & _). destruct IH as (r & R & F); [intros; apply H; right; auto|]. exists (d :: r). cbn [mapM]. rewrite E. cbn [bind]. rewrite R. split; [reflexivity|constructor; auto].
Qed.

(** A graph is drawn exactly when all nodes that have a label have a name; otherwise KeyError. *)
Theorem C77_drawn g : proper g -> ((exists r, draw g = Ok r) <-> forall n a, In (n, a) (nodes g) -> label a <> None -> name a <> None) /\ (forall e, draw g = Err e -> e = KeyError).
Proof.
  intros P. assert (Dec : (forall n a, In (n, a) (nodes g) -> ~ nameless a) \/ exists n a, In (n, a) (nodes g) /\ nameless a).
  { induction (nodes g) as [|[n a] l IH]; [left; intros n a []|]. assert (Da : nameless a \/ ~ nameless a) by (unfold nameless; destruct (name a), (label a); [right|right|left|right]; try (split; congruence); intros [? ?]; congruence).
    destruct Da as [Da|Da]; [right; exists n, a; split; [left; auto|auto]|]. destruct IH as [IH|(m & b & I & H)]; [left; intros m b [E|I]; [injection E as <- <-; exact Da|apply (IH m b I)]|right; exists m, b; split; [right; auto|auto]]. }
  unfold networkx_to_visjs_data. destruct Dec as [H|H].
  - destruct (nodes_ok (nodes g) 0 H) as (r & R & _), (edges_ok g (edges g) P (fun e I => I)) as (es & E & _). rewrite R. cbn [bind]. rewrite E. cbn [bind]. split; [|discriminate]. split; [|eauto]. intros _ n a I L N. apply (H n a I). split; auto.
  - rewrite (nodes_err _ 0 H). cbn [bind]. split; [|congruence]. split; [intros (r & E); discriminate|]. intros X. destruct H as (n & a & I & N & L). exfalso. apply (X n a I L N).
Qed.
(** Nodes have the numbers of their places, their attributes, and their text as label; a text of a node without name
    and label is in its title, and replaced in its label when it is longer than ten characters. *)
Theorem C77_nodes g nm ns es : draw g = Ok (nm, ns, es) -> proper g -> nm = graph_name g /\ List.length ns = List.length (nodes g) /\
  forall k n a, nth_error (nodes g) k = Some (n, a) -> exists d t, nth_error ns k = Some d /\ text str_int n a t /\
    id d = k /\ position d = pos n /\ n_color d = color a /\ n_shape d = match shape a with Some s => s | None => "circular" end /\
    (anonymous a -> n_title d = Some t /\ n_label d = if 10 <? String.length t then "[ ]" else t) /\ (~ anonymous a -> n_title d = None /\ n_label d = t).
Proof.
  intros E P. assert (H : forall n a, In (n, a) (nodes g) -> ~ nameless a). { destruct (C77_drawn g P) as [H _]. intros n a I [N L]. apply (proj1 H (ex_intro _ _ E) n a I L N). }
  destruct (nodes_ok (nodes g) 0 H) as (r & R & Len & K). unfold networkx_to_visjs_data in E. rewrite R in E. cbn [bind] in E. destruct (mapM (draw_edge g) (edges g)) as [es'|e]; cbn [bind] in E; [|discriminate]. injection E as <- <- <-. split; [reflexivity|]. split; [exact Len|].
  intros k n a Nk. destruct (K k n a Nk) as (d & Kd & Ed). destruct (labels_ok n a (H n a (nth_error_In _ _ Nk))) as (t & T & El). exists d, t. split; [exact Kd|]. split; [exact T|]. unfold draw_node in Ed. rewrite El in Ed. cbn [bind fst snd Nat.add] in Ed. injection Ed as <-. cbn. repeat (split; [reflexivity|]). unfold anonymous. split.
  - intros [N L]. rewrite N. auto.
  - intros NA. destruct (name a) as [s|] eqn:N; [auto|]. exfalso. destruct (label a) as [l|] eqn:L; [|auto]. apply (H n a (nth_error_In _ _ Nk)). split; [auto|congruence].
Qed.
(** Edges stay in order and lead from and to the places of their nodes, with arrows when the graph is directed. *)
Theorem C77_edges g nm ns es : draw g = Ok (nm, ns, es) -> proper g -> Forall2 (fun e d =>
  option_map fst (nth_error (nodes g) (from d)) = Some (tail e) /\ option_map fst (nth_error (nodes g) (to d)) = Some (head e) /\ e_color d = edge_color e /\
  (e_arrows d = NoArrows <-> directed g = false) /\ (directed g = true -> forall t, e_arrows d = Typed t <-> head_type e = Some t)) (edges g) es.
Proof.
  intros E P. unfold networkx_to_visjs_data in E. destruct (draw_nodes pos str_int 0 (nodes g)) as [r|e]; cbn [bind] in E; [|discriminate]. destruct (edges_ok g (edges g) P (fun e I => I)) as (es' & E' & F). rewrite E' in E. cbn [bind] in E. injection E as _ _ ->.
  assert (G : forall l r, (forall e, In e l -> In e (edges g)) -> Forall2 (fun e d => draw_edge g e = Ok d) l r -> Forall2 (fun e d =>
    option_map fst (nth_error (nodes g) (from d)) = Some (tail e) /\ option_map fst (nth_error (nodes g) (to d)) = Some (head e) /\ e_color d = edge_color e /\
    (e_arrows d = NoArrows <-> directed g = false) /\ (directed g = true -> forall t, e_arrows d = Typed t <-> head_type e = Some t)) l r).
  { intros l0 r0 H F0. induction F0 as [|e d l0 r0 Ed F0 IH]; constructor; [|apply IH; intros; apply H; right; auto]. destruct (draw_edge_ok g e P (H e (or_introl eq_refl))) as (d' & Ed' & A & B & C & Ar). rewrite Ed in Ed'. injection Ed' as <-. repeat (split; [assumption|]). rewrite Ar. destruct (directed g); [destruct (head_type e)|]; repeat split; intros; try congruence; try discriminate. }
  apply G; auto.
Qed.
(** Expected of a label: it can be given alone.  A graph with such a node is not drawn at all. *)
Theorem C77_label_refuted g n a s : In (n, a) (nodes g) -> label a = Some s -> name a = None -> draw g = Err KeyError.
Proof. intros I L N. unfold networkx_to_visjs_data. rewrite nodes_err; [reflexivity|]. exists n, a. split; [exact I|]. split; [exact N|congruence]. Qed.
End C77.

Definition plain := Attributes None None None None.
Definition example_graph (l : option string) := Graph "g" true [(NStr "a very long one", plain); (NInt 7, Attributes None None (Some "box") None); (NOther 3, Attributes (Some "n") l None (Some "red"))]
  [Edge (NInt 7) (NOther 3) None (Some "blue"); Edge (NOther 3) (NStr "a very long one") (Some "bar") None].
Example C77_example : networkx_to_visjs_data (fun _ => Some 0) (fun _ => "7") (example_graph (Some "!")) =
  Ok ("g", [NodeData nat 0 (Some 0) "[ ]" (Some "a very long one") "circular" None; NodeData nat 1 (Some 0) "7" (Some "7") "box" None; NodeData nat 2 (Some 0) "n!" None "circular" (Some "red")],
      [EdgeData 1 2 To (Some "blue"); EdgeData 2 0 (Typed "bar") None]).
Proof. reflexivity. Qed.

Print Assumptions C77_drawn.
Print Assumptions C77_nodes.
Print Assumptions C77_edges.
Print Assumptions C77_label_refuted.

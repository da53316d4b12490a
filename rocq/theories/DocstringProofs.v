(** Lemmas on the reading of docstrings. *)
From Coq Require Import Ascii String List Bool Arith Lia.
From Verif Require Import Base BaseProofs AnnotationModel AnnotationProofs DocstringModel DocstringSpec.
Import ListNotations.
Local Open Scope char_scope.
Local Open Scope list_scope.
Local Open Scope nat_scope.

Lemma starts_with_iff p s : starts_with p s = true <-> exists b, s = p ++ b.
Proof.
  revert s; induction p as [|c p IH]; intros s; cbn [starts_with].
  - split; [intros _; exists s; reflexivity|reflexivity].
  - destruct s as [|d s]; [split; [discriminate|intros [b E]; discriminate]|].
    rewrite andb_true_iff, IH, Ascii.eqb_eq. split.
    + intros [-> [b ->]]. exists b; reflexivity.
    + intros [b E]. injection E as -> ->. split; [reflexivity|exists b; reflexivity].
Qed.

Lemma contains_iff p s : contains p s = true <-> occurs p s.
Proof.
  induction s as [|c s IH]; cbn [contains]; rewrite orb_true_iff, starts_with_iff.
  - split; [intros [[b E]|E]; [exists [], b; exact E|discriminate]|].
    intros (a & b & E). destruct a; [left; exists b; exact E|discriminate].
  - rewrite IH. split.
    + intros [[b E]|(a & b & E)]; [exists [], b; exact E|exists (c :: a), b; cbn; congruence].
    + intros (a & b & E). destruct a as [|x a]; [left; exists b; exact E|]. right. injection E as -> E. exists a, b; exact E.
Qed.

(** * Splitting *)
Definition nowhere (sep s rest : str) : Prop :=
  forall a c b, s = a ++ c :: b -> starts_with sep (c :: b ++ rest) = false.

Lemma split_go_skip sep k s cur : split_go sep s cur k = split_go sep (skipn k s) cur 0.
Proof.
  revert s; induction k as [|k IH]; intros s; [reflexivity|]. destruct s as [|c s]; [reflexivity|].
  cbn [split_go skipn]. apply IH.
Qed.

Lemma split_go_nil sep s cur : nowhere sep s [] -> split_go sep s cur 0 = [cur ++ s].
Proof.
  revert cur; induction s as [|c s IH]; intros cur H; cbn [split_go]; [rewrite app_nil_r; reflexivity|].
  replace (starts_with sep (c :: s)) with false.
  - rewrite IH, <- app_assoc; [reflexivity|]. intros a d b E. apply (H (c :: a) d b). cbn; congruence.
  - symmetry. specialize (H [] c s eq_refl). rewrite app_nil_r in H. exact H.
Qed.

Lemma split_go_sep sep x rest cur : sep <> [] -> nowhere sep x (sep ++ rest) ->
  split_go sep (x ++ sep ++ rest) cur 0 = (cur ++ x) :: split_go sep rest [] 0.
Proof.
  intros Hs. revert cur; induction x as [|c x IH]; intros cur H.
  - rewrite app_nil_r. destruct sep as [|d sep]; [congruence|]. cbn [app split_go].
    replace (starts_with (d :: sep) (d :: sep ++ rest)) with true
      by (symmetry; apply starts_with_iff; exists rest; reflexivity).
    rewrite split_go_skip. cbn [List.length]. rewrite Nat.sub_succ, Nat.sub_0_r, skipn_app, skipn_all, Nat.sub_diag. reflexivity.
  - cbn [app split_go]. rewrite (H [] c x eq_refl). rewrite IH, <- app_assoc; [reflexivity|].
    intros a d b E. apply (H (c :: a) d b). cbn; congruence.
Qed.

Lemma nowhere_occurs sep s : ~ occurs sep s -> nowhere sep s [].
Proof.
  intros H a c b E. rewrite app_nil_r. destruct (starts_with sep (c :: b)) eqn:Q; [|reflexivity].
  apply starts_with_iff in Q as [r Q]. exfalso; apply H. exists a, r. congruence.
Qed.

Lemma app_two {A} (b t : list A) c x r : b ++ c :: x = t ++ r -> (exists u, b = t ++ u) \/ (exists u, t = b ++ c :: u).
Proof.
  revert t; induction b as [|e b IH]; intros t Q.
  - destruct t as [|d t]; [left; exists []; reflexivity|]. cbn [app] in Q. injection Q as -> _. right; exists t; reflexivity.
  - destruct t as [|d t]; [left; exists (e :: b); reflexivity|]. cbn [app] in Q. injection Q as -> Q.
    destruct (IH t Q) as [[u ->]|[u ->]]; [left; exists u; reflexivity|right; exists u; reflexivity].
Qed.

(** A separator whose first character is not found again in it does not overlap itself. *)
Lemma nowhere_before c0 t s rest : ~ In c0 t -> ~ occurs (c0 :: t) s -> nowhere (c0 :: t) s ((c0 :: t) ++ rest).
Proof.
  intros Hc Ho a c b E. destruct (starts_with _ _) eqn:Q; [|reflexivity]. exfalso.
  apply starts_with_iff in Q as [r Q]. cbn [app] in Q. injection Q as -> Q.
  (* b ++ c0 :: t ++ rest = t ++ r *)
  destruct (app_two _ _ _ _ _ Q) as [[u ->]|[u ->]].
  - apply Ho. exists a, u. exact E.
  - apply Hc. apply in_or_app; right; left; reflexivity.
Qed.

Lemma split_str_none sep s : ~ occurs sep s -> split_str sep s = [s].
Proof. intros H. unfold split_str. rewrite split_go_nil; [reflexivity|apply nowhere_occurs, H]. Qed.

Lemma split_str_sep c0 t x rest : ~ In c0 t -> ~ occurs (c0 :: t) x ->
  split_str (c0 :: t) (x ++ (c0 :: t) ++ rest) = x :: split_str (c0 :: t) rest.
Proof. intros Hc Ho. unfold split_str. rewrite split_go_sep; [reflexivity|discriminate|apply nowhere_before; auto]. Qed.

Lemma split_str_concat c0 t x l : ~ In c0 t -> ~ occurs (c0 :: t) x -> Forall (fun y => ~ occurs (c0 :: t) y) l ->
  split_str (c0 :: t) (x ++ concat (map (app (c0 :: t)) l)) = x :: l.
Proof.
  intros Hc. revert x; induction l as [|y l IH]; intros x Hx Hl; cbn [map concat].
  - rewrite app_nil_r. apply split_str_none, Hx.
  - inversion Hl; subst. rewrite <- app_assoc, split_str_sep by assumption. rewrite IH by assumption. reflexivity.
Qed.

(** * Stripping *)
Lemma is_space_white c : is_space c = true <-> white c.
Proof.
  unfold is_space, white. set (n := nat_of_ascii c). cbn [In].
  rewrite orb_true_iff, !andb_true_iff, !Nat.leb_le. lia.
Qed.

Lemma lstrip_spec s : exists a, s = a ++ lstrip s /\ Forall white a /\ (forall c t, lstrip s = c :: t -> ~ white c).
Proof.
  unfold lstrip. induction s as [|c s IH]; cbn [drop_while].
  - exists []; split; [reflexivity|split; [constructor|discriminate]].
  - destruct (is_space c) eqn:E.
    + destruct IH as (a & H1 & H2 & H3). exists (c :: a). split; [cbn; congruence|]. split; [|exact H3].
      constructor; [apply is_space_white, E|exact H2].
    + exists []. split; [reflexivity|]. split; [constructor|]. intros d t Q. injection Q as -> ->.
      rewrite <- is_space_white. congruence.
Qed.

Lemma strip_trimmed s : trimmed s (strip s).
Proof.
  unfold strip. destruct (lstrip_spec s) as (a & H1 & H2 & H3). set (m := lstrip s) in *.
  destruct (lstrip_spec (rev m)) as (b & H4 & H5 & H6). set (r := lstrip (rev m)) in *.
  assert (Hm : m = rev r ++ rev b) by (rewrite <- rev_app_distr, <- H4, rev_involutive; reflexivity).
  exists a, (rev b). split; [rewrite <- Hm; exact H1|]. split; [exact H2|]. split; [apply Forall_rev, H5|]. split.
  - intros c t E. apply (H3 c (t ++ rev b)). rewrite Hm, E. reflexivity.
  - intros c t E. apply (H6 c (rev t)). apply (f_equal (@rev ascii)) in E. rewrite rev_involutive, rev_app_distr in E. exact E.
Qed.

Lemma trimmed_unique s t u : trimmed s t -> trimmed s u -> (exists c, In c t /\ ~ white c) -> t = u.
Proof.
  intros (a & b & E & Ha & Hb & Hf & Hl) (a' & b' & E' & Ha' & Hb' & Hf' & Hl') (c & Hc & Hw).
  (* same start *)
  assert (Hstart : forall (x y : str) p q, Forall white x -> Forall white y ->
      (forall c t, p = c :: t -> ~ white c) -> (forall c t, q = c :: t -> ~ white c) ->
      p <> [] -> (exists d, In d q /\ ~ white d) -> x ++ p = y ++ q -> x = y /\ p = q).
  { clear. intros x; induction x as [|d x IH]; intros y p q Hx Hy Hp Hq Np Nq E.
    - destruct y as [|e y]; [auto|]. cbn [app] in E. exfalso. subst p. inversion Hy; subst. eapply Hp; [reflexivity|]; assumption.
    - destruct y as [|e y].
      + cbn [app] in E. subst q. inversion Hx; subst. exfalso. eapply Hq; [reflexivity|]; assumption.
      + cbn [app] in E. injection E as -> E. inversion Hx; inversion Hy; subst.
        destruct (IH y p q) as [-> ->]; auto. }
  assert (Nt : t <> []) by (destruct t; [destruct Hc|discriminate]).
  (* u contains c too *)
  assert (Hcu : In c u).
  { assert (Hs : In c (a' ++ u ++ b')) by (rewrite <- E', E; apply in_or_app; right; apply in_or_app; left; exact Hc).
    apply in_app_or in Hs as [Hs|Hs]; [rewrite Forall_forall in Ha'; exfalso; apply Hw, Ha', Hs|].
    apply in_app_or in Hs as [Hs|Hs]; [exact Hs|rewrite Forall_forall in Hb'; exfalso; apply Hw, Hb', Hs]. }
  assert (Nu : u <> []) by (destruct u; [destruct Hcu|discriminate]).
  destruct (Hstart a a' (t ++ b) (u ++ b')) as [-> E2]; auto.
  - intros d r Q. destruct t as [|d' t]; [congruence|]. injection Q as -> _. eapply Hf; reflexivity.
  - intros d r Q. destruct u as [|d' u]; [congruence|]. injection Q as -> _. eapply Hf'; reflexivity.
  - destruct t; [congruence|discriminate].
  - exists c; split; [apply in_or_app; left; exact Hcu|exact Hw].
  - congruence.
  - apply (f_equal (@rev ascii)) in E2. rewrite !rev_app_distr in E2.
    destruct (Hstart (rev b) (rev b') (rev t) (rev u)) as [_ E3]; auto.
    + apply Forall_rev, Hb.
    + apply Forall_rev, Hb'.
    + intros d r Q. apply (Hl d (rev r)). apply (f_equal (@rev ascii)) in Q. rewrite rev_involutive in Q. exact Q.
    + intros d r Q. apply (Hl' d (rev r)). apply (f_equal (@rev ascii)) in Q. rewrite rev_involutive in Q. exact Q.
    + intros Q. apply Nt. apply (f_equal (@rev ascii)) in Q. rewrite rev_involutive in Q. exact Q.
    + exists c; split; [apply -> in_rev; exact Hcu|exact Hw].
    + apply (f_equal (@rev ascii)) in E3. rewrite !rev_involutive in E3. exact E3.
Qed.

(** * Arguments *)
Lemma take_until n rest : ~ In ":" n -> take_while (fun c => negb (Ascii.eqb c ":")) (n ++ ":" :: rest) = n.
Proof.
  induction n as [|c n IH]; intros H; [reflexivity|]. cbn [app take_while].
  destruct (Ascii.eqb c ":") eqn:E; [apply Ascii.eqb_eq in E; exfalso; apply H; left; auto|]. cbn [negb].
  rewrite IH; [reflexivity|]. intros Q; apply H; right; exact Q.
Qed.
Lemma drop_until n rest : ~ In ":" n -> drop_while (fun c => negb (Ascii.eqb c ":")) (n ++ ":" :: rest) = ":" :: rest.
Proof.
  induction n as [|c n IH]; intros H; [reflexivity|]. cbn [app drop_while].
  destruct (Ascii.eqb c ":") eqn:E; [apply Ascii.eqb_eq in E; exfalso; apply H; left; auto|]. cbn [negb].
  apply IH. intros Q; apply H; right; exact Q.
Qed.
Lemma occurs_app_l p s t : occurs p s -> occurs p (s ++ t).
Proof. intros (a & b & ->). exists a, (b ++ t). rewrite !app_assoc. reflexivity. Qed.

Section Parsed.
Variable annotations : str -> option (res unit).

Lemma parse_attribute_ok n d t : ~ In ":" n -> ~ occurs (chars ":type") (n ++ ":" :: d) ->
  parse_attribute annotations (param_text (n, d, t)) =
    let* serialized := of_option KeyError (annotations n) in let* _ := serialized in Ok (n, strip d).
Proof.
  intros Hn Ht. unfold parse_attribute.
  assert (E : (if contains (chars ":type") (param_text (n, d, t)) then hd [] (split_str (chars ":type ") (param_text (n, d, t)))
               else param_text (n, d, t)) = n ++ ":" :: d).
  { unfold param_text. destruct t as [t|].
    - replace (n ++ ":" :: d ++ chars ":type " ++ t) with ((n ++ ":" :: d) ++ chars ":type " ++ t)
        by (rewrite <- app_assoc; reflexivity).
      replace (contains _ _) with true
        by (symmetry; apply contains_iff; exists (n ++ ":" :: d), (" " :: t); reflexivity).
      rewrite (split_str_sep ":" (chars "type ")); [reflexivity| |].
      + cbn. intuition discriminate.
      + intros (a & b & Q). apply Ht. exists a, (" " :: b). rewrite Q. reflexivity.
    - rewrite app_nil_r. destruct (contains _ _) eqn:C; [|reflexivity]. apply contains_iff in C. contradiction. }
  rewrite E. replace (has ":" (n ++ ":" :: d)) with true.
  - rewrite take_until, drop_until by exact Hn. reflexivity.
  - symmetry. unfold has. apply existsb_exists. exists ":". split; [apply in_or_app; right; left; reflexivity|reflexivity].
Qed.

(** the dictionary after all arguments *)
Definition known (n : str) : Prop := annotations n = Some (Ok tt).

Lemma fold_ok params acc : Forall (fun p => ~ In ":" (fst (fst p))) params ->
  Forall (fun p => ~ occurs (chars ":type") (fst (fst p) ++ ":" :: snd (fst p))) params ->
  Forall (fun p => known (fst (fst p))) params ->
  foldM (fun args param => let* p := parse_attribute annotations param in Ok (set_doc (fst p) (snd p) args))
    (map param_text params) acc
  = Ok (fold_left (fun d p => set_doc (fst (fst p)) (strip (snd (fst p))) d) params acc).
Proof.
  revert acc; induction params as [|[[n d] t] params IH]; intros acc H1 H2 H3; [reflexivity|].
  inversion H1; inversion H2; inversion H3; subst. cbn [fst snd] in *. cbn [map foldM fold_left].
  rewrite parse_attribute_ok by assumption. unfold known in *. match goal with H : annotations n = _ |- _ => rewrite H end.
  cbn [of_option bind fst snd]. apply IH; assumption.
Qed.

Lemma fold_err params acc : Forall (fun p => ~ In ":" (fst (fst p))) params ->
  Forall (fun p => ~ occurs (chars ":type") (fst (fst p) ++ ":" :: snd (fst p))) params ->
  Exists (fun p => ~ known (fst (fst p))) params ->
  exists e, foldM (fun args param => let* p := parse_attribute annotations param in Ok (set_doc (fst p) (snd p) args))
    (map param_text params) acc = Err e.
Proof.
  revert acc; induction params as [|[[n d] t] params IH]; intros acc H1 H2 H3; [inversion H3|].
  inversion H1; inversion H2; subst. cbn [fst snd] in *. cbn [map foldM].
  rewrite parse_attribute_ok by assumption. destruct (annotations n) as [[[]|e]|] eqn:E; cbn [of_option bind fst snd]; eauto.
  inversion H3; subst; [exfalso; apply H0; exact E|]. apply IH; assumption.
Qed.

Lemma parse_text description params : well_written description params -> doc_text description params <> [] ->
  parse_docstring annotations (Some (doc_text description params)) =
    let* args := foldM (fun args param => let* p := parse_attribute annotations param in Ok (set_doc (fst p) (snd p) args))
                   (map param_text params) [] in
    Ok (strip description, args).
Proof.
  intros (H1 & H2 & H3 & _) Hne. unfold parse_docstring.
  destruct (doc_text description params) as [|c s] eqn:E; [congruence|]. rewrite <- E in *. clear c s E Hne.
  rewrite (split_str_none (chars ":return:")) by exact H1. cbn [hd].
  unfold doc_text. rewrite <- (map_map param_text (app (chars ":param "))).
  change (chars ":param ") with (":" :: chars "param "). rewrite split_str_concat; [reflexivity| | |].
  - cbn. intuition discriminate.
  - exact H2.
  - apply Forall_map. exact H3.
Qed.

Lemma str_eqb_eq s t : str_eqb s t = true <-> s = t.
Proof.
  revert t; induction s as [|c s IH]; intros [|d t]; cbn; try (split; [discriminate|discriminate]); [tauto|].
  rewrite andb_true_iff, Ascii.eqb_eq, IH. split; [intros [-> ->]; reflexivity|intros E; injection E; auto].
Qed.

Lemma lookup_set_doc n m v d : lookup n (set_doc m v d) = if str_eqb n m then Some v else lookup n d.
Proof.
  induction d as [|[j x] d IH]; cbn [set_doc].
  - cbn [lookup]. reflexivity.
  - destruct (str_eqb m j) eqn:E; cbn [lookup].
    + apply str_eqb_eq in E; subst j. destruct (str_eqb n m); reflexivity.
    + rewrite IH. destruct (str_eqb n j) eqn:F; [|reflexivity]. apply str_eqb_eq in F; subst j.
      destruct (str_eqb n m) eqn:G; [|reflexivity]. apply str_eqb_eq in G; subst m.
      assert (str_eqb n n = true) by (apply str_eqb_eq; reflexivity). congruence.
Qed.
End Parsed.

(** The last description of a name *)
Fixpoint last_desc (n : str) (params : list param) : option str :=
  match params with
  | [] => None
  | (m, d, _) :: params => match last_desc n params with
                           | Some x => Some x
                           | None => if str_eqb n m then Some (strip d) else None
                           end
  end.
Lemma fold_lookup n params acc :
  lookup n (fold_left (fun d p => set_doc (fst (fst p)) (strip (snd (fst p))) d) params acc) =
    match last_desc n params with Some x => Some x | None => lookup n acc end.
Proof.
  revert acc; induction params as [|[[m d] t] params IH]; intros acc; [reflexivity|]. cbn [fold_left last_desc fst snd].
  rewrite IH, lookup_set_doc. destruct (last_desc n params); [reflexivity|]. destruct (str_eqb n m); reflexivity.
Qed.
Lemma last_desc_none n params : ~ In n (map (fun p => fst (fst p)) params) -> last_desc n params = None.
Proof.
  induction params as [|[[j x] y] params IH]; intros H; [reflexivity|]. cbn in *. rewrite IH by tauto.
  destruct (str_eqb n j) eqn:E; [apply str_eqb_eq in E; subst; tauto|reflexivity].
Qed.
Lemma last_desc_last n d t before after : ~ In n (map (fun p => fst (fst p)) after) ->
  last_desc n (before ++ (n, d, t) :: after) = Some (strip d).
Proof.
  intros H. induction before as [|[[m e] u] before IH]; cbn [app last_desc].
  - rewrite last_desc_none by exact H. assert (str_eqb n n = true) as -> by (apply str_eqb_eq; reflexivity). reflexivity.
  - rewrite IH. reflexivity.
Qed.

(** * Pretty names *)
Fixpoint pretty_chars (start : bool) (s : str) : str :=
  match s with
  | [] => []
  | c :: s => (if Ascii.eqb c "_" then " "
               else if start && match s with e :: _ => negb (Ascii.eqb e "_") | [] => false end then upper c else c)
              :: pretty_chars (Ascii.eqb c "_") s
  end.

Lemma split_on_cons s : exists w ws, split_on "_" s = w :: ws.
Proof.
  destruct s as [|c s]; cbn [split_on]; [eauto|]. destruct (Ascii.eqb c "_"); [eauto|].
  destruct (split_on "_" s); eauto.
Qed.
Lemma join_cons sep c w ws : join sep ((c :: w) :: ws) = c :: join sep (w :: ws).
Proof. destruct ws; reflexivity. Qed.

Lemma pretty_both s :
  pretty_chars true s = prettyname s /\
  pretty_chars false s = match split_on "_" s with w :: ws => join [" "] (w :: map pretty_word ws) | [] => [] end.
Proof.
  induction s as [|c s [IH1 IH2]]; [split; reflexivity|]. unfold prettyname in *. cbn [pretty_chars split_on].
  destruct (Ascii.eqb c "_") eqn:E.
  - rewrite IH1. cbn [map pretty_word]. destruct (split_on_cons s) as (w & ws & ->). split; reflexivity.
  - rewrite IH2. destruct s as [|e s'] eqn:Es.
    { split; reflexivity. }
    rewrite <- Es in *. destruct (split_on_cons s) as (w & ws & Hw). rewrite Hw.
    rewrite join_cons. split; [|reflexivity]. cbn [map].
    assert (Hc : pretty_word (c :: w) = (if negb (Ascii.eqb e "_") then upper c else c) :: w).
    { subst s. cbn [split_on] in Hw. destruct (Ascii.eqb e "_"); [injection Hw as <- <-; reflexivity|].
      destruct (split_on_cons s') as (w' & ws' & E'). rewrite E' in Hw. injection Hw as <- <-. reflexivity. }
    rewrite Hc, join_cons. subst s. reflexivity.
Qed.

Lemma upper_capital c : capital c (upper c).
Proof.
  unfold capital, upper. destruct ((97 <=? nat_of_ascii c) && (nat_of_ascii c <=? 122)) eqn:E.
  - apply andb_true_iff in E as [E1 E2]. apply Nat.leb_le in E1, E2. left. split; [lia|].
    apply nat_ascii_embedding. lia.
  - right. split; [|reflexivity]. apply andb_false_iff in E as [E|E]; apply Nat.leb_gt in E; lia.
Qed.

Lemma pretty_chars_nth s : forall start i c, nth_error s i = Some c -> exists d,
  nth_error (pretty_chars start s) i = Some d /\
  (c = "_" -> d = " ") /\
  (c <> "_" -> (match i with O => start = true | S j => nth_error s j = Some "_" end) -> (exists e, nth_error s (S i) = Some e /\ e <> "_") -> capital c d) /\
  (c <> "_" -> ~ ((match i with O => start = true | S j => nth_error s j = Some "_" end) /\ (exists e, nth_error s (S i) = Some e /\ e <> "_")) -> d = c).
Proof.
  induction s as [|x s IH]; intros start i c Hi; [destruct i; discriminate|]. destruct i as [|i].
  - cbn in Hi. injection Hi as ->. cbn [pretty_chars nth_error]. eexists; split; [reflexivity|].
    destruct (Ascii.eqb c "_") eqn:E.
    { apply Ascii.eqb_eq in E. split; [auto|]. split; intros N; congruence. }
    apply Ascii.eqb_neq in E. split; [congruence|]. split; intros _.
    + intros -> (e & He & Ne). cbn. destruct s as [|e' s]; [discriminate|]. cbn in He. injection He as ->.
      apply Ascii.eqb_neq in Ne. rewrite Ne. cbn. apply upper_capital.
    + intros N. destruct start; [|reflexivity]. destruct s as [|e s]; [reflexivity|]. cbn.
      destruct (Ascii.eqb e "_") eqn:F; [reflexivity|]. apply Ascii.eqb_neq in F. exfalso; apply N. split; [reflexivity|].
      exists e; split; [reflexivity|exact F].
  - cbn [nth_error] in Hi. destruct (IH (Ascii.eqb x "_") i c Hi) as (d & H1 & H2 & H3 & H4).
    exists d. cbn [pretty_chars nth_error]. split; [exact H1|]. split; [exact H2|].
    assert (Hiff : (match i with O => Ascii.eqb x "_" = true | S j => nth_error s j = Some "_" end) <-> nth_error (x :: s) i = Some "_").
    { destruct i as [|i]; cbn [nth_error]; [rewrite Ascii.eqb_eq; split; congruence|]. tauto. }
    split; intros N.
    + intros A B. apply H3; [exact N|apply Hiff, A|exact B].
    + intros A. apply H4; [exact N|]. rewrite Hiff. exact A.
Qed.
Lemma pretty_chars_length s : forall start, List.length (pretty_chars start s) = List.length s.
Proof. induction s as [|c s IH]; intros start; cbn; [reflexivity|]. rewrite IH. reflexivity. Qed.

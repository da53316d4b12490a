(** Facts on the serialization of annotations. *)
From Coq Require Import Ascii String List Bool Arith Lia.
From Verif Require Import Base BaseProofs AnnotationModel.
Import ListNotations.
Open Scope char_scope.
Open Scope list_scope.
Open Scope nat_scope.

(** * Equality *)
Section AnnInd.
Variable P : ann -> Prop.
Hypothesis H1 : forall b, P (Builtin b).
Hypothesis H2 : forall n, P (Class n).
Hypothesis H3 : P AnyType.
Hypothesis H4 : P NoneType.
Hypothesis H4' : P NoneValue.
Hypothesis H5 : P BareType.
Hypothesis H6 : forall n, P (TypeVariable n).
Hypothesis H7 : forall h args, Forall P args -> P (App h args).
Hypothesis H8 : forall a, P a -> P (Repeat a).
Hypothesis H9 : forall l, P (Enum l).
Fixpoint ann_ind' (a : ann) : P a :=
  match a with
  | Builtin b => H1 b | Class n => H2 n | AnyType => H3 | NoneType => H4 | NoneValue => H4' | BareType => H5
  | TypeVariable n => H6 n
  | App h args => H7 h args ((fix go (l : list ann) : Forall P l :=
      match l with [] => Forall_nil P | x :: l => Forall_cons x (ann_ind' x) (go l) end) args)
  | Repeat a => H8 a (ann_ind' a)
  | Enum l => H9 l
  end.
End AnnInd.

Lemma str_eqb_eq s t : str_eqb s t = true <-> s = t.
Proof.
  revert t; induction s as [|c s IH]; intros [|d t]; cbn [str_eqb]; split; intros H; try congruence; try discriminate.
  - apply andb_true_iff in H as [H1 H2]. apply Ascii.eqb_eq in H1. apply IH in H2. congruence.
  - injection H as -> ->. rewrite Ascii.eqb_refl. apply IH; reflexivity.
Qed.

Lemma all_two_eq {A} (f : A -> A -> bool) l m : Forall (fun x => forall y, f x y = true <-> x = y) l -> all_two f l m = true <-> l = m.
Proof.
  intros H; revert m; induction H as [|x l Hx Hl IH]; intros [|y m]; cbn [all_two]; split; intros E; try congruence; try discriminate.
  - apply andb_true_iff in E as [E1 E2]. apply Hx in E1. apply IH in E2. congruence.
  - injection E as -> ->. apply andb_true_iff; split; [apply Hx|apply IH]; reflexivity.
Qed.

Lemma head_beq_eq h k : head_beq h k = true <-> h = k.
Proof. split; [apply internal_head_dec_bl|apply internal_head_dec_lb]. Qed.

Lemma ann_eqb_eq a b : ann_eqb a b = true <-> a = b.
Proof.
  revert b; induction a as [x|n| | | | |n|h args IH|x IH|l] using ann_ind'; intros b; destruct b; cbn [ann_eqb];
    try (split; intros H; discriminate); try (split; reflexivity).
  - split; intros H; [apply internal_builtin_dec_bl in H; congruence|]. injection H as ->. destruct b; reflexivity.
  - rewrite str_eqb_eq. split; congruence.
  - rewrite str_eqb_eq. split; congruence.
  - rewrite andb_true_iff, head_beq_eq, (all_two_eq _ _ _ IH). split; [intros [-> ->]; reflexivity|intros H; injection H; auto].
  - rewrite IH. split; congruence.
  - rewrite all_two_eq; [split; congruence|]. apply Forall_forall. intros x _ y. apply str_eqb_eq.
Qed.

(** dedup leaves lists without duplicates alone *)
Lemma dedup_id {A} (eqb : A -> A -> bool) (Heq : forall a b, eqb a b = true <-> a = b) l seen :
  NoDup l -> (forall x, In x l -> ~ In x seen) -> dedup eqb seen l = l.
Proof.
  revert seen; induction l as [|x l IH]; intros seen Hnd Hs; [reflexivity|]. cbn [dedup].
  inversion Hnd as [|x' l' Hx Hl]; subst.
  destruct (memb eqb x seen) eqn:E.
  - unfold memb in E. apply existsb_exists in E as [y [Hy E]]. apply Heq in E; subst y.
    exfalso; apply (Hs x); [left; reflexivity|exact Hy].
  - f_equal. apply IH; [exact Hl|]. intros y Hy [->|Hs']; [apply Hx, Hy|]. apply (Hs y); [right; exact Hy|exact Hs'].
Qed.

Lemma dedup_length {A} (eqb : A -> A -> bool) l seen : List.length (dedup eqb seen l) <= List.length l.
Proof.
  revert seen; induction l as [|x l IH]; intros seen; cbn [dedup List.length]; [lia|].
  destruct (memb eqb x seen); cbn [List.length]; [specialize (IH seen)|specialize (IH (x :: seen))]; lia.
Qed.
(** if nothing is lost, nothing is removed *)
Lemma dedup_same_length {A} (eqb : A -> A -> bool) l seen : List.length (dedup eqb seen l) = List.length l -> dedup eqb seen l = l.
Proof.
  revert seen; induction l as [|x l IH]; intros seen; cbn [dedup List.length]; [reflexivity|].
  destruct (memb eqb x seen); cbn [List.length]; intros H.
  - pose proof (dedup_length eqb l seen); lia.
  - f_equal. apply IH. lia.
Qed.

Lemma map_res_mapM {A B} (f : A -> res B) l : map_res f l = mapM f l.
Proof. induction l as [|x l IH]; [reflexivity|]. cbn [map_res mapM]. rewrite IH. reflexivity. Qed.

(** * Characters *)
Lemma has_app c s t : has c (s ++ t) = has c s || has c t.
Proof. apply existsb_app. Qed.
Lemma has_cons c d s : has c (d :: s) = Ascii.eqb c d || has c s.
Proof. reflexivity. Qed.
Lemma has_in c s : has c s = true <-> In c s.
Proof.
  unfold has. rewrite existsb_exists. split; [intros [x [H E]]; apply Ascii.eqb_eq in E; subst; exact H|].
  intros H; exists c; split; [exact H|apply Ascii.eqb_refl].
Qed.
Lemma has_not c s : has c s = false <-> ~ In c s.
Proof. rewrite <- has_in. destruct (has c s); intuition congruence. Qed.

Definition clean_char (c : ascii) : bool := negb (existsb (Ascii.eqb c) ["["; "]"; ","; " "; newline]).
Definition clean (s : str) : bool := forallb clean_char s.

Lemma clean_no c s : clean s = true -> In c ["["; "]"; ","; " "; newline] -> has c s = false.
Proof.
  intros Hs Hc. apply has_not. intros Hin. unfold clean in Hs. rewrite forallb_forall in Hs.
  specialize (Hs c Hin). unfold clean_char in Hs. apply negb_true_iff in Hs.
  assert (existsb (Ascii.eqb c) ["["; "]"; ","; " "; newline] = true); [|congruence].
  apply existsb_exists. exists c; split; [exact Hc|apply Ascii.eqb_refl].
Qed.
Lemma clean_app s t : clean (s ++ t) = clean s && clean t.
Proof. apply forallb_app. Qed.

Definition bracket_free (s : str) := has "[" s = false /\ has "]" s = false.
Lemma clean_bracket_free s : clean s = true -> bracket_free s.
Proof. intros H; split; apply clean_no; cbn; auto. Qed.

(** * Spaces *)
Lemma remove_app c s t : remove_char c (s ++ t) = remove_char c s ++ remove_char c t.
Proof. apply filter_app. Qed.
Lemma remove_cons c d s : d <> c -> remove_char c (d :: s) = d :: remove_char c s.
Proof. intros H. unfold remove_char. cbn [filter]. apply Ascii.eqb_neq in H. rewrite H. reflexivity. Qed.
Lemma remove_id c s : has c s = false -> remove_char c s = s.
Proof.
  induction s as [|d s IH]; intros H; [reflexivity|]. cbn [has existsb] in H. apply orb_false_iff in H as [H1 H2].
  unfold remove_char in *. cbn [filter]. rewrite Ascii.eqb_sym, H1. cbn [negb]. f_equal. apply IH, H2.
Qed.
Lemma remove_no c s : has c (remove_char c s) = false.
Proof.
  apply has_not. unfold remove_char. rewrite filter_In. intros [_ H]. rewrite Ascii.eqb_refl in H. discriminate.
Qed.
Lemma remove_idem c s : remove_char c (remove_char c s) = remove_char c s.
Proof. apply remove_id, remove_no. Qed.
Lemma remove_has c d s : c <> d -> has d (remove_char c s) = has d s.
Proof.
  intros H. apply eq_true_iff_eq. rewrite !has_in. unfold remove_char. rewrite filter_In, negb_true_iff. split; [tauto|].
  intros Hi; split; [exact Hi|]. apply Ascii.eqb_neq. congruence.
Qed.

(** * The regular expression *)
Lemma take_drop_name n t : bracket_free n ->
  take_while (fun c => negb (is_bracket c)) (n ++ "[" :: t) = n /\
  drop_while (fun c => negb (is_bracket c)) (n ++ "[" :: t) = "[" :: t.
Proof.
  intros [Ho Hc]; induction n as [|c n IH]; [split; reflexivity|].
  cbn [has existsb] in Ho, Hc. apply orb_false_iff in Ho as [Ho1 Ho2]. apply orb_false_iff in Hc as [Hc1 Hc2].
  cbn [app take_while drop_while]. unfold is_bracket at 1 3.
  rewrite (Ascii.eqb_sym c "["), (Ascii.eqb_sym c "]"), Ho1, Hc1. cbn [orb negb].
  destruct (IH Ho2 Hc2) as [E1 E2]. rewrite E1, E2. auto.
Qed.

Lemma take_all s : has newline s = false -> take_while (fun c => negb (Ascii.eqb c newline)) s = s.
Proof.
  induction s as [|c s IH]; intros H; [reflexivity|]. cbn [has existsb] in H. apply orb_false_iff in H as [H1 H2].
  cbn [take_while]. rewrite Ascii.eqb_sym, H1. cbn [negb]. f_equal; auto.
Qed.

Lemma before_last_close_none s : has "]" s = false -> before_last_close s = None.
Proof.
  induction s as [|c s IH]; intros H; [reflexivity|]. cbn [has existsb] in H. apply orb_false_iff in H as [H1 H2].
  cbn [before_last_close]. rewrite IH by exact H2. rewrite Ascii.eqb_sym, H1. reflexivity.
Qed.
Lemma before_last_close_app r t : has "]" t = false -> before_last_close (r ++ "]" :: t) = Some r.
Proof.
  intros H; induction r as [|c r IH]; cbn [app before_last_close].
  - rewrite before_last_close_none by exact H. reflexivity.
  - rewrite IH. reflexivity.
Qed.

Lemma regexp_some n r t : bracket_free n -> has newline (r ++ "]" :: t) = false -> has "]" t = false ->
  regexp (n ++ "[" :: r ++ "]" :: t) = Some (n, r).
Proof.
  intros Hn Hnl Ht. unfold regexp. destruct (take_drop_name n (r ++ "]" :: t) Hn) as [-> ->].
  change (Ascii.eqb "[" "[") with true. cbn beta iota. rewrite take_all by exact Hnl.
  rewrite before_last_close_app by exact Ht. reflexivity.
Qed.
Lemma regexp_none n b : bracket_free n -> has newline b = false -> has "]" b = false -> regexp (n ++ "[" :: b) = None.
Proof.
  intros Hn Hnl Ht. unfold regexp. destruct (take_drop_name n b Hn) as [-> ->].
  change (Ascii.eqb "[" "[") with true. cbn beta iota. rewrite take_all by exact Hnl.
  rewrite before_last_close_none by exact Ht. reflexivity.
Qed.

(** The last closing bracket *)
Lemma last_close s : has "]" s = true -> exists r t, s = r ++ "]" :: t /\ has "]" t = false.
Proof.
  induction s as [|c s IH]; intros H; [discriminate|].
  destruct (has "]" s) eqn:E.
  - destruct (IH eq_refl) as (r & t & -> & Ht). exists (c :: r), t; auto.
  - cbn [has existsb] in H. change (existsb (Ascii.eqb "]") s) with (has "]" s) in H. rewrite E, orb_false_r in H.
    apply Ascii.eqb_eq in H; subst c. exists [], s; auto.
Qed.

(** * Splitting arguments *)

(** walk d s: depth after s from depth d, None when a bracket is closed at depth 0 or a comma met there *)
Fixpoint walk (d : nat) (s : str) : option nat :=
  match s with
  | [] => Some d
  | c :: s =>
      if Ascii.eqb c "[" then walk (S d) s
      else if Ascii.eqb c "]" then match d with 0 => None | S d => walk d s end
      else if Ascii.eqb c "," then match d with 0 => None | S _ => walk d s end
      else walk d s
  end.

Lemma walk_app d s t : walk d (s ++ t) = match walk d s with Some d' => walk d' t | None => None end.
Proof.
  revert d; induction s as [|c s IH]; intros d; [reflexivity|]. cbn [app walk].
  destruct (Ascii.eqb c "["); [apply IH|]. destruct (Ascii.eqb c "]"); [destruct d; [reflexivity|apply IH]|].
  destruct (Ascii.eqb c ","); [destruct d; [reflexivity|apply IH]|apply IH].
Qed.
Lemma walk_clean d s : clean s = true -> walk d s = Some d.
Proof.
  induction s as [|c s IH]; intros H; [reflexivity|].
  cbn [clean forallb] in H. apply andb_true_iff in H as [H1 H2]. unfold clean_char in H1. cbn [existsb] in H1.
  apply negb_true_iff, orb_false_iff in H1 as [Ha H1]. apply orb_false_iff in H1 as [Hb H1]. apply orb_false_iff in H1 as [Hc _].
  cbn [walk]. rewrite Ha, Hb, Hc. apply IH, H2.
Qed.
(** deeper is easier *)
Lemma walk_S d s d' : walk d s = Some d' -> walk (S d) s = Some (S d').
Proof.
  revert d d'; induction s as [|c s IH]; intros d d' H; [cbn in *; congruence|]. cbn [walk] in *.
  destruct (Ascii.eqb c "["); [apply IH, H|]. destruct (Ascii.eqb c "]"); [destruct d; [discriminate|apply IH, H]|].
  destruct (Ascii.eqb c ","); [destruct d; [discriminate|apply IH, H]|apply IH, H].
Qed.

Lemma extract_seg seg : forall d d' opened closed current arguments rest,
  walk d seg = Some d' -> opened = closed + d ->
  exists opened' closed', opened' = closed' + d' /\
    extract_loop (seg ++ rest) opened closed current arguments = extract_loop rest opened' closed' (current ++ seg) arguments.
Proof.
  induction seg as [|c seg IH]; intros d d' opened closed current arguments rest Hw Ho.
  - cbn in Hw. injection Hw as <-. exists opened, closed. rewrite app_nil_r. split; [exact Ho|reflexivity].
  - cbn [app extract_loop]. cbn [walk] in Hw. destruct (Ascii.eqb c "[") eqn:E1.
    + apply Ascii.eqb_eq in E1; subst c. change (Ascii.eqb "[" "]") with false. change (Ascii.eqb "[" ",") with false.
      cbn beta iota. rewrite andb_false_r.
      destruct (IH _ _ (S opened) closed (current ++ ["["]) arguments rest Hw) as (o' & c' & H1 & H2); [lia|].
      exists o', c'; split; [exact H1|]. rewrite H2, <- app_assoc. reflexivity.
    + destruct (Ascii.eqb c "]") eqn:E2.
      * apply Ascii.eqb_eq in E2; subst c. change (Ascii.eqb "]" ",") with false. cbn beta iota. rewrite andb_false_r.
        destruct d as [|d]; [discriminate|].
        destruct (IH _ _ opened (S closed) (current ++ ["]"]) arguments rest Hw) as (o' & c' & H1 & H2); [lia|].
        exists o', c'; split; [exact H1|]. rewrite H2, <- app_assoc. reflexivity.
      * destruct (Ascii.eqb c ",") eqn:E3.
        -- destruct d as [|d]; [discriminate|].
           replace (closed =? opened) with false by (symmetry; apply Nat.eqb_neq; lia). cbn [andb].
           destruct (IH _ _ opened closed (current ++ [c]) arguments rest Hw) as (o' & c' & H1 & H2); [lia|].
           exists o', c'; split; [exact H1|]. rewrite H2, <- app_assoc. reflexivity.
        -- rewrite andb_false_r.
           destruct (IH _ _ opened closed (current ++ [c]) arguments rest Hw) as (o' & c' & H1 & H2); [lia|].
           exists o', c'; split; [exact H1|]. rewrite H2, <- app_assoc. reflexivity.
Qed.

(** complete pieces, then a last one *)
Definition pieces_then (pre : list str) (y : str) : str := concat (map (fun p => p ++ [","]) pre) ++ y.

Lemma join_pieces pre y : join [","] (pre ++ [y]) = pieces_then pre y.
Proof.
  unfold pieces_then. induction pre as [|p pre IH]; [reflexivity|].
  cbn [app join map concat]. rewrite IH. destruct (pre ++ [y]) eqn:E; [destruct pre; discriminate|].
  rewrite <- !app_assoc. reflexivity.
Qed.

Lemma extract_pieces pre y d : Forall (fun p => walk 0 p = Some 0) pre -> walk 0 y = Some d -> y <> [] ->
  has " " (pieces_then pre y) = false -> extract_args (pieces_then pre y) = pre ++ [y].
Proof.
  intros Hpre Hy Hne Hsp. unfold extract_args. rewrite remove_id by exact Hsp. clear Hsp.
  assert (G : forall opened arguments, extract_loop (pieces_then pre y) opened opened [] arguments = arguments ++ pre ++ [y]).
  { induction Hpre as [|p pre Hp Hpre IH]; intros opened arguments.
    - unfold pieces_then. cbn [map concat app].
      destruct (extract_seg y 0 d opened opened [] arguments [] Hy) as (o' & c' & H1 & H2); [lia|].
      rewrite app_nil_r in H2. rewrite H2. cbn [app extract_loop]. destruct y; [congruence|reflexivity].
    - unfold pieces_then in *. cbn [map concat]. rewrite <- !app_assoc.
      destruct (extract_seg p 0 0 opened opened [] arguments ([","] ++ concat (map (fun p => p ++ [","]) pre) ++ y) Hp) as (o' & c' & H1 & H2); [lia|].
      rewrite H2. rewrite Nat.add_0_r in H1; subst o'. cbn [app extract_loop].
      change (Ascii.eqb "," "[") with false. change (Ascii.eqb "," "]") with false. change (Ascii.eqb "," ",") with true.
      cbn beta iota. rewrite Nat.eqb_refl. cbn [andb]. rewrite IH, <- app_assoc. reflexivity. }
  rewrite (G 0 []). reflexivity.
Qed.

Lemma extract_join parts : parts <> [] -> Forall (fun p => walk 0 p = Some 0 /\ p <> [] /\ has " " p = false) parts ->
  extract_args (join [","] parts) = parts.
Proof.
  intros Hne HF. destruct (exists_last Hne) as (pre & y & ->). rewrite join_pieces.
  apply Forall_app in HF as [Hpre Hy]. inversion Hy as [|y' l' [Hy1 [Hy2 Hy3]] _]; subst.
  apply (extract_pieces pre y 0); auto.
  - apply Forall_forall. intros p Hp. rewrite Forall_forall in Hpre. apply Hpre, Hp.
  - unfold pieces_then. clear - Hpre Hy3. induction Hpre as [|p pre [_ [_ Hp]] Hpre IH]; [exact Hy3|].
    cbn [map concat]. rewrite <- !app_assoc, !has_app, Hp. rewrite has_app in IH. exact IH.
Qed.

(** * Ellipsis *)
Definition ellipsis := chars ",...".

(** every comma is followed by something other than a dot *)
Fixpoint quiet (s : str) : Prop :=
  match s with
  | [] => True
  | c :: t => (c = "," -> match t with [] => False | x :: _ => x <> "." end) /\ quiet t
  end.

Lemma quiet_app s t : quiet s -> quiet t -> quiet (s ++ t).
Proof.
  induction s as [|c s IH]; intros Hs Ht; [exact Ht|]. destruct Hs as [Hc Hs]. cbn [app quiet]. split; [|apply IH; auto].
  intros E; specialize (Hc E). destruct s as [|x s]; [destruct Hc|exact Hc].
Qed.
Lemma quiet_no_comma s : has "," s = false -> quiet s.
Proof.
  induction s as [|c s IH]; intros H; [exact I|]. cbn [has existsb] in H. apply orb_false_iff in H as [H1 H2]. split; [|auto].
  intros ->. discriminate.
Qed.
Lemma quiet_comma x s : x <> "." -> quiet (x :: s) -> quiet ("," :: x :: s).
Proof. intros Hx Hs. split; [intros _; exact Hx|exact Hs]. Qed.

Lemma starts_with_spec p s : starts_with p s = true <-> exists t, s = p ++ t.
Proof.
  revert s; induction p as [|c p IH]; intros s; cbn [starts_with].
  - split; [exists s; reflexivity|reflexivity].
  - destruct s as [|d s]; [split; [discriminate|intros [t H]; discriminate]|].
    rewrite andb_true_iff, Ascii.eqb_eq, IH. split.
    + intros [-> [t ->]]. exists t; reflexivity.
    + intros [t H]. injection H as -> ->. split; [reflexivity|exists t; reflexivity].
Qed.

Lemma before_none s : quiet s -> before ellipsis s = None.
Proof.
  induction s as [|c s IH]; intros H; [reflexivity|]. destruct H as [Hc Hs]. cbn [before].
  destruct (starts_with ellipsis (c :: s)) eqn:E.
  - apply starts_with_spec in E as [t E]. injection E as -> ->. exfalso. apply (Hc eq_refl). reflexivity.
  - rewrite IH by exact Hs. reflexivity.
Qed.
Lemma before_some u v : quiet u -> before ellipsis (u ++ ellipsis ++ v) = Some u.
Proof.
  induction u as [|c u IH]; intros H; [reflexivity|]. destruct H as [Hc Hs]. cbn [app before].
  destruct (starts_with ellipsis (c :: u ++ ellipsis ++ v)) eqn:E.
  - apply starts_with_spec in E as [t E]. injection E as -> E. exfalso. specialize (Hc eq_refl).
    destruct u as [|x u]; [exact Hc|]. cbn in E. injection E as -> _. congruence.
  - rewrite IH by exact Hs. reflexivity.
Qed.
(** no occurrence in a part when none in the whole *)
Lemma before_part p s t : before ellipsis (s ++ p ++ t) = None -> before ellipsis p = None.
Proof.
  induction s as [|c s IH]; cbn [app]; intros H.
  - revert H; induction p as [|c p IH]; intros H; [reflexivity|]. cbn [app] in H. cbn [before] in *.
    destruct (starts_with ellipsis (c :: p ++ t)) eqn:E; [discriminate|].
    destruct (starts_with ellipsis (c :: p)) eqn:E2.
    + apply starts_with_spec in E2 as [w E2]. assert (starts_with ellipsis (c :: p ++ t) = true); [|congruence].
      apply starts_with_spec. exists (w ++ t). change (c :: p ++ t) with ((c :: p) ++ t). rewrite E2, <- app_assoc. reflexivity.
    + destruct (before ellipsis (p ++ t)) eqn:E3; [discriminate|]. rewrite IH; reflexivity.
  - apply IH. cbn [before] in H. destruct (starts_with ellipsis (c :: s ++ p ++ t)); [discriminate|].
    destruct (before ellipsis (s ++ p ++ t)); [discriminate|reflexivity].
Qed.
Lemma before_quiet u : quiet u -> before ellipsis u = None.
Proof. apply before_none. Qed.

(** * Annotations that are printed *)

Definition good_head (h : head) : bool :=
  match h with
  | HIterator | HSubclass | HCadViewType | HMarkdownType | HPlotDataType => false
  | _ => true
  end.
Definition arity (h : head) (n : nat) : Prop :=
  match h with HTuple => 1 <= n | HUnion => 2 <= n | HDict => n = 2 | _ => n = 1 end.
Definition is_union (a : ann) : bool := match a with App HUnion _ => true | _ => false end.

Section Plain.
Variable importable : str -> bool.

Definition class_name (n : str) : Prop :=
  importable n = true /\ has "." n = true /\ clean n = true /\ hd "." n <> "." /\
  n <> chars "typing.Any" /\ n <> chars "typing.Type".

Inductive plain : ann -> Prop :=
| plain_builtin b : plain (Builtin b)
| plain_class n : class_name n -> plain (Class n)
| plain_any : plain AnyType
| plain_type : plain BareType
| plain_app h args : good_head h = true -> arity h (List.length args) ->
    (h = HUnion -> NoDup args /\ Forall (fun a => is_union a = false) args) ->
    Forall plain args -> plain (App h args)
| plain_repeat a : plain a -> plain (Repeat a)
| plain_enum values : values <> [] -> NoDup values ->
    Forall (fun v => clean v = true /\ has "'" v = false) values -> plain (Enum values).

(** printing with a separator *)
Fixpoint pr (sep : str) (a : ann) : str :=
  match a with
  | Builtin b => builtin_name b
  | Class n => n
  | AnyType => chars "typing.Any"
  | BareType => chars "Type"
  | NoneType | NoneValue | TypeVariable _ => []
  | App h args => head_name h ++ "[" :: join sep (map (pr sep) args) ++ ["]"]
  | Repeat x => head_name HTuple ++ "[" :: (pr sep x ++ sep ++ chars "...") ++ ["]"]
  | Enum values => chars "Literal" ++ "[" :: ("'" :: join ("'" :: sep ++ ["'"]) values ++ ["'"]) ++ ["]"]
  end.

Definition name_of (a : ann) : str :=
  match a with App h _ => head_name h | Repeat _ => head_name HTuple | Enum _ => chars "Literal" | _ => [] end.
Definition body (sep : str) (a : ann) : str :=
  match a with
  | App h args => join sep (map (pr sep) args)
  | Repeat x => pr sep x ++ sep ++ chars "..."
  | Enum values => "'" :: join ("'" :: sep ++ ["'"]) values ++ ["'"]
  | _ => []
  end.
Definition bracketed (a : ann) : bool := match a with App _ _ | Repeat _ | Enum _ => true | _ => false end.

Lemma pr_shape sep a : bracketed a = true -> pr sep a = name_of a ++ "[" :: body sep a ++ ["]"].
Proof. destruct a; intros H; try discriminate; reflexivity. Qed.

Lemma head_name_clean h : clean (head_name h) = true.
Proof. destruct h; reflexivity. Qed.
Lemma name_of_clean a : clean (name_of a) = true.
Proof. destruct a; try reflexivity. apply head_name_clean. Qed.

(** unbracketed ones are clean *)
Lemma leaf_clean sep a : plain a -> bracketed a = false -> clean (pr sep a) = true.
Proof.
  intros Hp Hb. inversion Hp as [b|n Hn| | |h args|x Hx|values]; subst; cbn [bracketed] in Hb; try discriminate.
  - destruct b; reflexivity.
  - apply Hn.
  - reflexivity.
  - reflexivity.
Qed.

Lemma hd_app_ne (s t : str) : s <> [] -> hd "." (s ++ t) = hd "." s.
Proof. destruct s; [congruence|reflexivity]. Qed.
Lemma pr_first sep a : plain a -> hd "." (pr sep a) <> ".".
Proof.
  intros Hp. inversion Hp as [b|n Hn| | |h args|x Hx|values]; subst; cbn [pr].
  - destruct b; discriminate.
  - apply Hn.
  - discriminate.
  - discriminate.
  - destruct h; discriminate.
  - discriminate.
  - discriminate.
Qed.
Lemma pr_ne sep a : plain a -> pr sep a <> [].
Proof. intros Hp E. apply (pr_first sep a Hp). rewrite E. reflexivity. Qed.

Lemma join_has c sep parts : has c sep = false -> Forall (fun p => has c p = false) parts -> has c (join sep parts) = false.
Proof.
  intros Hs HF. induction HF as [|p parts Hp HF IH]; [reflexivity|]. cbn [join]. destruct parts; [exact Hp|].
  rewrite !has_app, Hp, Hs, IH. reflexivity.
Qed.
Lemma pr_has c sep a : In c [" "; newline] -> has c sep = false -> plain a -> has c (pr sep a) = false.
Proof.
  intros Hc Hs. induction a as [b|n| | | | |n|h args IH|x IH|l] using ann_ind'; intros Hp;
    try (apply clean_no; [apply leaf_clean; [exact Hp|reflexivity]|cbn in *; intuition]).
  - inversion Hp as [| | | |h' args' _ _ _ Hargs| |]; subst. cbn [pr].
    repeat (rewrite ?has_app, ?has_cons).
    rewrite (clean_no c (head_name h)) by (try apply head_name_clean; cbn in *; intuition).
    rewrite join_has; [|exact Hs|].
    + cbn [In] in Hc. destruct Hc as [<-|[<-|[]]]; reflexivity.
    + rewrite Forall_forall in *. intros s Hs'. apply in_map_iff in Hs' as (a & <- & Ha). auto.
  - inversion Hp as [| | | | |a' Ha|]; subst. cbn [pr].
    repeat (rewrite ?has_app, ?has_cons). rewrite Hs, IH by exact Ha.
    cbn [In] in Hc. destruct Hc as [<-|[<-|[]]]; reflexivity.
  - inversion Hp as [| | | | | |l' _ _ Hl]; subst. cbn [pr].
    repeat (rewrite ?has_app, ?has_cons).
    rewrite join_has.
    + cbn [In] in Hc. destruct Hc as [<-|[<-|[]]]; reflexivity.
    + repeat (rewrite ?has_app, ?has_cons). rewrite Hs.
      cbn [In] in Hc. destruct Hc as [<-|[<-|[]]]; reflexivity.
    + rewrite Forall_forall in *. intros v Hv. apply clean_no; [apply (Hl v Hv)|]. cbn in *; intuition.
Qed.

(** * Serialization prints *)
Lemma get_schema_plain args : Forall plain args -> mapM get_schema args = Ok (map (fun _ => tt) args).
Proof.
  intros H. induction H as [|a l Ha Hl IH]; [reflexivity|]. cbn [mapM map]. rewrite IH.
  inversion Ha as [| | | |h args Hh| |]; subst; try reflexivity. destruct h; try discriminate; reflexivity.
Qed.
Lemma no_none args : Forall plain args -> union_is_default_value args = false.
Proof.
  intros H. unfold union_is_default_value. replace (existsb _ args) with false; [apply andb_false_r|].
  symmetry. induction H as [|a l Ha Hl IH]; [reflexivity|]. cbn [existsb]. rewrite IH. inversion Ha; reflexivity.
Qed.
Lemma mapM_map {A B} (f : A -> res B) g l : Forall (fun x => f x = Ok (g x)) l -> mapM f l = Ok (map g l).
Proof. intros H; induction H as [|x l Hx Hl IH]; [reflexivity|]. cbn [mapM map]. rewrite Hx, IH. reflexivity. Qed.

Lemma serialize_plain a : plain a -> serialize a = Ok (Some (pr (chars ", ") a)).
Proof.
  induction a as [b|n| | | | |n|h args IH|x IH|l] using ann_ind'; intros Hp; try reflexivity; try (inversion Hp; fail).
  - inversion Hp as [| | | |h' args' Hh Har _ Hargs| |]; subst. cbn [serialize].
    replace (head_beq h HSubclass) with false by (destruct h; try discriminate; reflexivity).
    rewrite no_none, andb_false_r by exact Hargs.
    destruct args as [|a args]; [destruct h; cbn in Har; try lia; discriminate|].
    rewrite get_schema_plain by exact Hargs. cbn [bind].
    rewrite map_res_mapM, (mapM_map _ (fun a => Some (pr (chars ", ") a))).
    + cbn [bind]. rewrite (mapM_map string_of (fun s : option str => match s with Some s => s | None => [] end)).
      * cbn [bind]. rewrite map_map. reflexivity.
      * apply Forall_forall. intros s Hs. apply in_map_iff in Hs as (a' & <- & _). reflexivity.
    + rewrite Forall_forall in *. intros a' Ha'. apply IH; auto.
  - inversion Hp as [| | | | |a' Ha|]; subst. cbn [serialize].
    replace (get_schema x) with (@Ok unit tt).
    + cbn [bind]. rewrite IH by exact Ha. cbn [bind pr]. unfold chars at 1 3. cbn [list_ascii_of_string app].
      rewrite <- !app_assoc. reflexivity.
    + inversion Ha as [| | | |h args Hh| |]; subst; try reflexivity. destruct h; try discriminate; reflexivity.
  - cbn [serialize pr]. do 2 f_equal. unfold chars. cbn [list_ascii_of_string app]. do 8 f_equal. rewrite <- app_assoc. reflexivity.
Qed.

(** Removing spaces *)
Lemma remove_join c sep parts : remove_char c (join sep parts) = join (remove_char c sep) (map (remove_char c) parts).
Proof.
  induction parts as [|p parts IH]; [reflexivity|]. cbn [join map]. destruct parts as [|q parts]; [reflexivity|].
  cbn [map] in *. rewrite !remove_app, IH. reflexivity.
Qed.
Lemma strip_pr a : plain a -> remove_char " " (pr (chars ", ") a) = pr [","] a.
Proof.
  induction a as [b|n| | | | |n|h args IH|x IH|l] using ann_ind'; intros Hp; try reflexivity; try (inversion Hp; fail).
  - destruct b; reflexivity.
  - apply remove_id, clean_no; [|cbn; auto]. apply (leaf_clean [] (Class n)); [exact Hp|reflexivity].
  - inversion Hp as [| | | |h' args' Hh Har _ Hargs| |]; subst. cbn [pr].
    rewrite remove_app. f_equal; [apply remove_id, clean_no; [apply head_name_clean|cbn; auto]|].
    change (remove_char " " ("[" :: ?s)) with ("[" :: remove_char " " s). f_equal.
    rewrite remove_app, remove_join, map_map. f_equal. f_equal. apply map_ext_in. intros a Ha. rewrite Forall_forall in *. auto.
  - inversion Hp as [| | | | |a' Ha|]; subst. cbn [pr].
    rewrite !remove_app. f_equal. change (remove_char " " ("[" :: ?s)) with ("[" :: remove_char " " s). f_equal.
    rewrite !remove_app, IH by exact Ha. reflexivity.
  - inversion Hp as [| | | | | |l' _ _ Hl]; subst. cbn [pr].
    rewrite remove_app. f_equal. rewrite remove_cons by discriminate. f_equal. rewrite remove_app. f_equal.
    rewrite remove_cons by discriminate. f_equal. rewrite remove_app, remove_join. f_equal. f_equal.
    rewrite <- (map_id l) at 2. apply map_ext_in. intros v Hv. rewrite Forall_forall in Hl.
    apply remove_id, clean_no; [apply (Hl v Hv)|cbn; auto].
Qed.

(** * Depth of what is printed *)
Lemma walk_join d parts : Forall (fun p => walk 0 p = Some 0) parts -> walk (S d) (join [","] parts) = Some (S d).
Proof.
  intros HF.
  assert (W : forall p, walk 0 p = Some 0 -> walk (S d) p = Some (S d)).
  { intros p Hp. clear - Hp. assert (forall k, walk k p = Some k) by (induction k; [exact Hp|apply walk_S; assumption]). auto. }
  induction HF as [|p parts Hp HF IH]; [reflexivity|]. cbn [join]. destruct parts; [apply W, Hp|].
  rewrite walk_app, (W p Hp). cbn [app walk]. change (Ascii.eqb "," "[") with false. change (Ascii.eqb "," "]") with false.
  change (Ascii.eqb "," ",") with true. cbn beta iota. exact IH.
Qed.
Lemma walk_body a : plain a -> (forall b, plain b -> In b match a with App _ args => args | Repeat x => [x] | _ => [] end -> walk 0 (pr [","] b) = Some 0) ->
  walk 1 (body [","] a) = Some 1.
Proof.
  intros Hp IH. inversion Hp as [b|n Hn| | |h args Hh Har Hu Hargs|x Hx|values _ _ Hl]; subst; try reflexivity; cbn [body].
  - apply walk_join. apply Forall_forall. intros p Hin. apply in_map_iff in Hin as (b & <- & Hb).
    apply IH; [|exact Hb]. rewrite Forall_forall in Hargs; auto.
  - rewrite walk_app, (walk_S 0 _ 0) by (apply IH; [exact Hx|left; reflexivity]). reflexivity.
  - change (walk 1 ("'" :: ?s)) with (walk 1 s). rewrite walk_app.
    replace (walk 1 (join _ values)) with (Some 1); [reflexivity|]. symmetry. clear Hp.
    induction Hl as [|v l [Hv _] Hl IHl]; [reflexivity|]. cbn [join]. destruct l; [apply walk_clean, Hv|].
    rewrite walk_app, walk_clean by exact Hv. rewrite walk_app. exact IHl.
Qed.
Lemma walk_pr a : plain a -> walk 0 (pr [","] a) = Some 0.
Proof.
  induction a as [b|n| | | | |n|h args IH|x IH|l] using ann_ind'; intros Hp;
    try (apply walk_clean, leaf_clean; [exact Hp|reflexivity]); try (inversion Hp; fail).
  - rewrite pr_shape by reflexivity. rewrite walk_app, walk_clean by apply name_of_clean. cbn [walk].
    change (Ascii.eqb "[" "[") with true. cbn beta iota. rewrite walk_app, walk_body; [reflexivity|exact Hp|].
    intros b Hb Hin. rewrite Forall_forall in IH. auto.
  - rewrite pr_shape by reflexivity. rewrite walk_app, walk_clean by apply name_of_clean. cbn [walk].
    change (Ascii.eqb "[" "[") with true. cbn beta iota. rewrite walk_app, walk_body; [reflexivity|exact Hp|].
    intros b Hb [<-|[]]. auto.
  - rewrite pr_shape by reflexivity. rewrite walk_app, walk_clean by apply name_of_clean. cbn [walk].
    change (Ascii.eqb "[" "[") with true. cbn beta iota. rewrite walk_app, walk_body; [reflexivity|exact Hp|].
    intros b Hb [].
Qed.
End Plain.

Section Parse.
Variable importable : str -> bool.
Notation plain := (plain importable).
Notation deserialize_str := (deserialize_str importable).

(** Deserialization of what is between the first and the last brackets *)
Definition from_raw (D : str -> res ann) (c : schema_class) (n raw : str) : res ann :=
  let generic h := let* args := mapM D (extract_args raw) in make h args in
  match c with
  | CBuiltin => Err KeyError
  | CTuple => match before ellipsis raw with
              | Some arg => let* subtype := D arg in Ok (Repeat subtype)
              | None => generic HTuple
              end
  | CList => generic HList
  | CUnion => generic HUnion
  | CDict => generic HDict
  | CInstanceOf => generic HInstanceOf
  | CSubclass => generic HSubclass
  | CMethod => generic (if str_eqb n (chars "MethodType") then HMethodType else HClassMethodType)
  | CAttribute => generic (if str_eqb n (chars "AttributeType") then HAttributeType else HClassAttributeType)
  | CType => let* args := mapM D (extract_args raw) in match args with [] => Ok BareType | _ => make HType args end
  | CEnum => Ok (Enum (dedup str_eqb [] (split_on "," (remove_char "'" raw))))
  end.

Lemma deserialize_shape fuel n r t c :
  bracket_free n -> has newline (r ++ "]" :: t) = false -> has "]" t = false ->
  lookup n SERIALIZED_TO_SCHEMA_CLASS = Some c -> c <> CBuiltin ->
  deserialize_str (S fuel) (n ++ "[" :: r ++ "]" :: t) = from_raw (deserialize_str fuel) c n (remove_char " " r).
Proof.
  intros Hn Hnl Ht Hl Hc.
  assert (Ho : has "[" (n ++ "[" :: r ++ "]" :: t) = true).
  { rewrite has_app, has_cons. apply orb_true_r. }
  assert (Hcl : has "]" (n ++ "[" :: r ++ "]" :: t) = true).
  { rewrite has_app, has_cons, has_app, has_cons. change (Ascii.eqb "]" "]") with true. cbn [orb]. rewrite !orb_true_r. reflexivity. }
  pose proof (regexp_some n r t Hn Hnl Ht) as Hr.
  assert (Hraw : raw_args (n ++ "[" :: r ++ "]" :: t) = Ok (remove_char " " r)).
  { unfold raw_args. rewrite Ho, Hcl, Hr. reflexivity. }
  cbn [AnnotationModel.deserialize_str]. rewrite Ho, Hr. cbn [of_option bind fst]. rewrite Hl. cbn [of_option bind].
  unfold annotation_from_serialized, args_from_serialized. rewrite Hraw, Hr. cbn [of_option bind fst].
  destruct c; try reflexivity. congruence.
Qed.

Lemma deserialize_unclosed fuel n b : bracket_free n -> has newline b = false -> has "]" b = false ->
  deserialize_str (S fuel) (n ++ "[" :: b) = Err AttributeError.
Proof.
  intros Hn Hnl Hb. cbn [AnnotationModel.deserialize_str].
  replace (has "[" (n ++ "[" :: b)) with true by (rewrite has_app, has_cons; symmetry; apply orb_true_r).
  rewrite regexp_none by assumption. reflexivity.
Qed.

Definition class_of (h : head) : schema_class :=
  match h with
  | HTuple => CTuple | HList | HIterator => CList | HUnion => CUnion | HDict => CDict | HInstanceOf => CInstanceOf
  | HSubclass => CSubclass | HType => CType | HMethodType | HClassMethodType => CMethod
  | _ => CAttribute
  end.
Lemma lookup_head h : good_head h = true -> lookup (head_name h) SERIALIZED_TO_SCHEMA_CLASS = Some (class_of h).
Proof. destruct h; intros H; try discriminate; reflexivity. Qed.

Lemma from_raw_head D h raw : good_head h = true -> (h = HTuple -> before ellipsis raw = None) -> extract_args raw <> [] ->
  from_raw D (class_of h) (head_name h) raw = let* args := mapM D (extract_args raw) in make h args.
Proof.
  intros Hh Ht Hne. destruct h; try discriminate; try reflexivity.
  - cbn [class_of from_raw]. rewrite Ht by reflexivity. reflexivity.
  - cbn [class_of from_raw]. destruct (mapM D (extract_args raw)) as [args|e] eqn:E; [|reflexivity]. cbn [bind].
    destruct args; [|reflexivity]. destruct (extract_args raw); [congruence|]. cbn [mapM] in E.
    destruct (D s); [|discriminate]. cbn [bind] in E. destruct (mapM D l); discriminate.
Qed.

(** * Ellipsis in what is printed *)
Fixpoint repeats (a : ann) : bool :=
  match a with
  | Repeat _ => true
  | App _ args => existsb repeats args
  | _ => false
  end.

Lemma quiet_join parts : Forall (fun p => quiet p /\ hd "." p <> ".") parts -> quiet (join [","] parts).
Proof.
  intros HF; induction HF as [|p parts [Hp Hd] HF IH]; [exact I|]. cbn [join]. destruct parts as [|q parts]; [exact Hp|].
  apply quiet_app; [exact Hp|]. inversion HF as [|q' l' [Hq Hqd] HF']; subst. cbn [app].
  assert (exists x s, join [","] (q :: parts) = x :: s /\ x <> ".") as (x & s & E & Hx).
  { destruct q as [|x q]; [exfalso; apply Hqd; reflexivity|]. cbn [join]. destruct parts; [exists x, q|exists x; eexists]; split; try reflexivity; exact Hqd. }
  rewrite E in *. apply quiet_comma; assumption.
Qed.

Lemma quiet_pr a : plain a -> repeats a = false -> quiet (pr [","] a).
Proof.
  induction a as [b|n| | | | |n|h args IH|x IH|l] using ann_ind'; intros Hp Hr;
    try (apply quiet_no_comma, clean_no; [apply (leaf_clean importable); [exact Hp|reflexivity]|cbn; auto]).
  - inversion Hp as [| | | |h' args' _ _ _ Hargs| |]; subst. cbn [pr].
    apply quiet_app; [apply quiet_no_comma, clean_no; [apply head_name_clean|cbn; auto]|].
    split; [discriminate|]. apply quiet_app; [|split; [discriminate|exact I]].
    apply quiet_join. cbn [repeats] in Hr. rewrite Forall_forall in *. intros p Hin. apply in_map_iff in Hin as (a & <- & Ha). split.
    + apply IH; auto. destruct (repeats a) eqn:E; [|reflexivity].
      assert (existsb repeats args = true) by (apply existsb_exists; exists a; auto). congruence.
    + apply (pr_first importable); auto.
  - discriminate.
  - inversion Hp as [| | | | | |l' _ _ Hl]; subst. cbn [pr].
    apply quiet_app; [apply quiet_no_comma; reflexivity|]. split; [discriminate|].
    apply quiet_app; [|split; [discriminate|exact I]]. split; [discriminate|].
    apply quiet_app; [|split; [discriminate|exact I]]. clear Hp Hr.
    induction Hl as [|v l [Hv _] Hl IHl]; [exact I|]. cbn [join].
    assert (quiet v) by (apply quiet_no_comma, clean_no; [exact Hv|cbn; auto]).
    destruct l; [assumption|]. apply quiet_app; [assumption|]. apply quiet_app; [|exact IHl].
    cbn [app]. split; [discriminate|]. split; [intros _; discriminate|]. split; [discriminate|exact I].
Qed.

(** * Reading back *)

(** no tuple has an ellipsis deeper inside *)
Fixpoint fine (a : ann) : bool :=
  match a with
  | App h args => (if head_beq h HTuple then negb (existsb repeats args) else true) && forallb fine args
  | Repeat x => negb (repeats x)
  | _ => true
  end.

Lemma body_has c a : In c [" "; newline] -> bracketed a = true -> plain a -> has c (body [","] a) = false.
Proof.
  intros Hc Hb Hp.
  assert (Hs : has c [","] = false) by (cbn in Hc; destruct Hc as [<-|[<-|[]]]; reflexivity).
  pose proof (pr_has importable c [","] a Hc Hs Hp) as H. clear Hs.
  rewrite pr_shape, has_app, has_cons, has_app in H by exact Hb.
  rewrite !orb_false_iff in H. apply H.
Qed.

Lemma lookup_name a : plain a -> bracketed a = true ->
  exists c, lookup (name_of a) SERIALIZED_TO_SCHEMA_CLASS = Some c /\ c <> CBuiltin /\
    c = match a with App h _ => class_of h | Repeat _ => CTuple | _ => CEnum end.
Proof.
  intros Hp Hb. inversion Hp as [b|n Hn| | |h args Hh|x Hx|values]; subst; try discriminate.
  - exists (class_of h). split; [exact (lookup_head h Hh)|]. split; [destruct h; discriminate|reflexivity].
  - exists CTuple. repeat split; discriminate.
  - exists CEnum. repeat split; discriminate.
Qed.

Lemma spaced_body a : plain a -> bracketed a = true -> remove_char " " (body (chars ", ") a) = body [","] a.
Proof.
  intros Hp Hb. pose proof (strip_pr importable a Hp) as H. rewrite !pr_shape in H by exact Hb.
  rewrite remove_app, remove_cons, remove_app in H by discriminate.
  rewrite (remove_id " " (name_of a)) in H by (apply clean_no; [apply name_of_clean|cbn; auto]).
  apply app_inv_head in H. injection H as H. apply app_inv_tail in H. exact H.
Qed.

Lemma deserialize_pr_raw fuel a : plain a -> bracketed a = true ->
  deserialize_str (S fuel) (pr [","] a) =
    from_raw (deserialize_str fuel) (match a with App h _ => class_of h | Repeat _ => CTuple | _ => CEnum end) (name_of a) (body [","] a).
Proof.
  intros Hp Hb. destruct (lookup_name a Hp Hb) as (c & Hl & Hc & E). rewrite pr_shape by exact Hb.
  rewrite (deserialize_shape fuel _ _ [] c); auto.
  - rewrite remove_id by (apply body_has; cbn; auto). rewrite E. reflexivity.
  - apply clean_bracket_free, name_of_clean.
  - rewrite has_app, body_has by (cbn; auto). reflexivity.
Qed.

Lemma deserialize_spaced fuel a : plain a ->
  deserialize_str (S fuel) (pr (chars ", ") a) = deserialize_str (S fuel) (pr [","] a).
Proof.
  intros Hp. destruct (bracketed a) eqn:Hb.
  - rewrite deserialize_pr_raw by assumption.
    destruct (lookup_name a Hp Hb) as (c & Hl & Hc & E). rewrite (pr_shape (chars ", ")) by exact Hb.
    rewrite (deserialize_shape fuel _ _ [] c); auto.
    + rewrite spaced_body by assumption. rewrite E. reflexivity.
    + apply clean_bracket_free, name_of_clean.
    + rewrite <- (remove_has " ") by discriminate. rewrite remove_app, spaced_body by assumption.
      rewrite has_app, body_has by (cbn; auto). reflexivity.
  - destruct a; try discriminate; reflexivity.
Qed.

Lemma lookup_in {B} s (l : list (str * B)) c : lookup s l = Some c -> In s (map fst l).
Proof.
  induction l as [|[k x] l IH]; cbn [lookup map fst]; [discriminate|].
  destruct (str_eqb s k) eqn:E; [apply str_eqb_eq in E; subst; left; reflexivity|right; auto].
Qed.
Lemma class_not_found n : has "." n = true -> lookup n SERIALIZED_TO_SCHEMA_CLASS = None.
Proof.
  intros H. destruct (lookup n SERIALIZED_TO_SCHEMA_CLASS) eqn:E; [|reflexivity].
  apply lookup_in in E. cbn [map fst SERIALIZED_TO_SCHEMA_CLASS] in E.
  repeat (destruct E as [<-|E]; [discriminate H|]). destruct E.
Qed.

Lemma leaf_back fuel a : plain a -> bracketed a = false -> deserialize_str (S fuel) (pr [","] a) = Ok a.
Proof.
  intros Hp Hb. inversion Hp as [b|n Hn| | |h args Hh|x Hx|values]; subst; try discriminate; cbn [pr].
  - destruct b; reflexivity.
  - destruct Hn as (Hi & Hd & Hc & Hf & Ha & Ht). cbn [AnnotationModel.deserialize_str].
    rewrite (clean_no "[" n Hc) by (cbn; auto). rewrite class_not_found by exact Hd.
    unfold class_from_name. rewrite Hd, Hi.
    destruct (str_eqb n (chars "typing.Any")) eqn:E1; [apply str_eqb_eq in E1; contradiction|].
    destruct (str_eqb n (chars "typing.Type")) eqn:E2; [apply str_eqb_eq in E2; contradiction|]. reflexivity.
  - reflexivity.
  - reflexivity.
Qed.

Lemma make_ok h args : good_head h = true -> arity h (List.length args) ->
  (h = HUnion -> NoDup args /\ Forall (fun a => is_union a = false) args) -> make h args = Ok (App h args).
Proof.
  intros Hh Har Hu.
  destruct h; try discriminate; cbn [arity] in Har;
    try (destruct args as [|a [|b args]]; cbn in Har; try lia; reflexivity); try reflexivity.
  - destruct (Hu eq_refl) as [Hnd Hnu]. cbn [make]. unfold make_union.
    assert (E : flatten args = args).
    { clear - Hnu. induction Hnu as [|a l Ha Hl IH]; [reflexivity|]. unfold flatten in *. cbn [flat_map]. rewrite IH.
      destruct a as [| | | | | | |h m| |]; try reflexivity. destruct h; try reflexivity. discriminate. }
    rewrite E, (dedup_id ann_eqb ann_eqb_eq) by (auto; intros x _ []).
    destruct args as [|a [|b args]]; cbn in Har; try lia. reflexivity.
  - destruct args as [|a [|b [|c args]]]; cbn in Har; try lia. reflexivity.
Qed.

Lemma extract_body h args : plain (App h args) -> extract_args (body [","] (App h args)) = map (pr [","]) args /\ map (pr [","]) args <> [].
Proof.
  intros Hp. inversion Hp as [| | | |h' args' Hh Har _ Hargs| |]; subst.
  assert (Hne : map (pr [","]) args <> []).
  { destruct args; [|discriminate]. destruct h; cbn in Har; lia. }
  split; [|exact Hne]. cbn [body]. apply extract_join; [exact Hne|].
  apply Forall_forall. intros p Hin. apply in_map_iff in Hin as (a & <- & Ha).
  rewrite Forall_forall in Hargs. specialize (Hargs a Ha). split; [apply (walk_pr importable), Hargs|].
  split; [apply (pr_ne importable), Hargs|]. apply (pr_has importable); [cbn; auto|reflexivity|exact Hargs].
Qed.

Lemma in_join_length (p : str) parts : In p parts -> List.length p <= List.length (join [","] parts).
Proof.
  induction parts as [|q parts IH]; intros H; [destruct H|]. cbn [join]. destruct parts as [|q2 parts].
  - destruct H as [->|[]]. lia.
  - rewrite !app_length. destruct H as [->|H]; [lia|]. specialize (IH H). lia.
Qed.

Lemma quiet_body h args : plain (App h args) -> existsb repeats args = false -> quiet (body [","] (App h args)).
Proof.
  intros Hp Hr. inversion Hp as [| | | |h' args' _ _ _ Hargs| |]; subst. cbn [body]. apply quiet_join.
  rewrite Forall_forall in *. intros p Hin. apply in_map_iff in Hin as (a & <- & Ha). split; [|apply (pr_first importable); auto].
  apply quiet_pr; auto. destruct (repeats a) eqn:E; [|reflexivity].
  assert (existsb repeats args = true) by (apply existsb_exists; exists a; auto). congruence.
Qed.

Lemma split_quoted values : values <> [] -> Forall (fun v => clean v = true /\ has "'" v = false) values ->
  split_on "," (remove_char "'" (body [","] (Enum values))) = values.
Proof.
  intros Hne Hl. cbn [body].
  assert (E : remove_char "'" ("'" :: join ("'" :: [","] ++ ["'"]) values ++ ["'"]) = join [","] values).
  { change (remove_char "'" ("'" :: ?s)) with (remove_char "'" s). rewrite remove_app, remove_join.
    change (remove_char "'" ["'"]) with (@nil ascii). rewrite app_nil_r.
    change (remove_char "'" ("'" :: [","] ++ ["'"])) with [","]. f_equal. rewrite <- (map_id values) at 2. apply map_ext_in.
    intros v Hv. rewrite Forall_forall in Hl. apply remove_id, (Hl v Hv). }
  rewrite E. clear E.
  assert (Hno : forall v rest, has "," v = false -> split_on "," (v ++ "," :: rest) = v :: split_on "," rest).
  { intros v rest. induction v as [|c v IH]; intros H.
    - reflexivity.
    - rewrite has_cons in H. apply orb_false_iff in H as [H1 H2]. cbn [app split_on]. rewrite Ascii.eqb_sym, H1, IH by exact H2. reflexivity. }
  assert (Hlast : forall v, has "," v = false -> split_on "," v = [v]).
  { intros v. induction v as [|c v IH]; intros H; [reflexivity|].
    rewrite has_cons in H. apply orb_false_iff in H as [H1 H2]. cbn [split_on]. rewrite Ascii.eqb_sym, H1, IH by exact H2. reflexivity. }
  induction Hl as [|v l [Hv _] Hl IH]; [congruence|].
  assert (Hc : has "," v = false) by (apply clean_no; [exact Hv|cbn; auto]). cbn [join].
  destruct l as [|w l]; [apply Hlast, Hc|]. cbn [app]. rewrite Hno by exact Hc. f_equal. apply IH. discriminate.
Qed.

Lemma back fuel a : plain a -> fine a = true -> List.length (pr [","] a) < fuel -> deserialize_str fuel (pr [","] a) = Ok a.
Proof.
  revert fuel; induction a as [b|n| | | | |n|h args IH|x IH|l] using ann_ind'; intros fuel Hp Hf Hlen;
    (destruct fuel as [|fuel]; [lia|]); try (apply leaf_back; [exact Hp|reflexivity]).
  - rewrite deserialize_pr_raw by (auto; reflexivity). cbn [name_of].
    destruct (extract_body h args Hp) as [He Hne].
    cbn [fine] in Hf. apply andb_true_iff in Hf as [Hf1 Hf2].
    assert (Hpa := Hp). inversion Hpa as [| | | |h' args' Hh Har Hu Hargs| |]; subst.
    rewrite from_raw_head; [|exact Hh| |rewrite He; exact Hne].
    + rewrite He.
      assert (E : mapM (deserialize_str fuel) (map (pr [","]) args) = Ok args).
      { assert (Hl : forall p, In p (map (pr [","]) args) -> List.length p < fuel).
        { intros p Hin. pose proof (in_join_length p _ Hin). rewrite pr_shape in Hlen by reflexivity.
          rewrite app_length in Hlen. cbn [List.length body] in Hlen. rewrite app_length in Hlen. cbn [List.length] in Hlen. lia. }
        clear - IH Hargs Hf2 Hl. induction args as [|a args IHa]; [reflexivity|]. cbn [map mapM].
        inversion IH as [|a' l' Ha Hr]; subst. inversion Hargs as [|a' l' Hpa Hpr]; subst.
        cbn [forallb] in Hf2. apply andb_true_iff in Hf2 as [Hfa Hfr].
        rewrite Ha by (auto; apply Hl; left; reflexivity). cbn [bind]. rewrite IHa; auto. intros p Hin. apply Hl. right; exact Hin. }
      rewrite E. cbn [bind]. apply make_ok; assumption.
    + intros ->. change (head_beq HTuple HTuple) with true in Hf1. cbn beta iota in Hf1. apply negb_true_iff in Hf1.
      apply before_none, quiet_body; assumption.
  - rewrite deserialize_pr_raw by (auto; reflexivity). inversion Hp as [| | | | |a' Ha|]; subst.
    cbn [fine] in Hf. apply negb_true_iff in Hf. cbn [name_of body from_raw].
    change ([","] ++ chars "...") with (ellipsis ++ []). rewrite before_some by (apply quiet_pr; assumption).
    rewrite IH; [reflexivity|exact Ha| |].
    + clear - Hf. induction x as [b|n| | | | |n|h args IH|x IH|l] using ann_ind'; try reflexivity; [|discriminate].
      cbn [repeats] in Hf. cbn [fine]. rewrite Hf. replace (if head_beq h HTuple then negb false else true) with true by (destruct (head_beq h HTuple); reflexivity).
      cbn [andb]. apply forallb_forall. intros a Ha. rewrite Forall_forall in IH. apply IH; [exact Ha|].
      destruct (repeats a) eqn:E; [|reflexivity]. assert (existsb repeats args = true) by (apply existsb_exists; exists a; auto). congruence.
    + rewrite pr_shape in Hlen by reflexivity. rewrite app_length in Hlen. cbn [List.length body] in Hlen. rewrite !app_length in Hlen.
      cbn [List.length] in Hlen. lia.
  - rewrite deserialize_pr_raw by (auto; reflexivity). inversion Hp as [| | | | | |l' Hne Hnd Hl]; subst.
    cbn [name_of from_raw]. rewrite split_quoted by assumption. rewrite (dedup_id str_eqb str_eqb_eq) by (auto; intros x _ []). reflexivity.
Qed.

Lemma roundtrip a : plain a -> fine a = true ->
  exists s, serialize a = Ok (Some s) /\ deserialize importable (Some s) = Ok a.
Proof.
  intros Hp Hf. exists (pr (chars ", ") a). split; [apply (serialize_plain importable), Hp|]. cbn [deserialize].
  rewrite deserialize_spaced by exact Hp. apply back; auto.
  rewrite <- (strip_pr importable a Hp). unfold remove_char.
  assert (forall s : str, List.length (filter (fun d => negb (Ascii.eqb d " ")) s) <= List.length s).
  { intros s; induction s as [|c s IHs]; cbn [filter List.length]; [lia|]. destruct (negb _); cbn [List.length]; lia. }
  specialize (H (pr (chars ", ") a)). lia.
Qed.
End Parse.

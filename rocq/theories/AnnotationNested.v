(** Tuples with an ellipsis deeper inside are not read back. *)
From Coq Require Import Ascii String List Bool Arith Lia.
From Verif Require Import Base BaseProofs AnnotationModel AnnotationProofs.
Import ListNotations.
Open Scope char_scope.
Open Scope list_scope.
Open Scope nat_scope.

Section Nested.
Variable importable : str -> bool.
Notation plain := (plain importable).
Notation deserialize_str := (deserialize_str importable).

(** * Truncated strings *)
Lemma app_eq {A} (a b c d : list A) : a ++ b = c ++ d ->
  (exists l, a = c ++ l /\ d = l ++ b) \/ (exists l, c = a ++ l /\ b = l ++ d).
Proof.
  revert c; induction a as [|x a IH]; intros c H.
  - right. exists c. auto.
  - destruct c as [|y c].
    + left. exists (x :: a). auto.
    + injection H as -> H. destruct (IH c H) as [(l & -> & E)|(l & -> & E)]; [left|right]; exists l; auto.
Qed.

Lemma prefix_join parts : forall r t, join [","] parts = r ++ "]" :: t ->
  exists pre p post y u, parts = pre ++ p :: post /\ r = pieces_then pre y /\ p = y ++ "]" :: u.
Proof.
  induction parts as [|p parts IH]; intros r t H.
  - cbn in H. destruct r; discriminate.
  - cbn [join] in H. destruct parts as [|q parts].
    + exists [], p, [], r, t. auto.
    + apply app_eq in H as [(l & E1 & E2)|(l & E1 & E2)].
      * destruct l as [|c l]; [discriminate|]. injection E2 as <- E2. exists [], p, (q :: parts), r, l. auto.
      * destruct l as [|c l]; [discriminate|]. cbn [app] in E2. injection E2 as <- E2.
        destruct (IH l t E2) as (pre & p' & post & y & u & H1 & H2 & H3).
        exists (p :: pre), p', post, y, u. split; [rewrite H1; reflexivity|]. split; [|exact H3].
        rewrite E1, H2. unfold pieces_then. cbn [map concat]. rewrite <- !app_assoc. reflexivity.
Qed.

Lemma cut_inside a y u : plain a -> pr [","] a = y ++ "]" :: u ->
  bracketed a = true /\ exists b w, y = name_of a ++ "[" :: b /\ body [","] a = b ++ w.
Proof.
  intros Hp E. destruct (bracketed a) eqn:Hb.
  - split; [reflexivity|]. rewrite pr_shape in E by exact Hb.
    destruct (clean_bracket_free _ (name_of_clean a)) as [_ Hn].
    apply app_eq in E as [(l & E1 & E2)|(l & E1 & E2)].
    + destruct l as [|c l]; [discriminate|]. injection E2 as <- E2. rewrite E1, has_app, has_cons in Hn.
      change (Ascii.eqb "]" "]") with true in Hn. cbn [orb] in Hn. rewrite orb_true_r in Hn. discriminate.
    + destruct l as [|c l]; [discriminate|]. cbn [app] in E2. injection E2 as <- E2.
      exists l. destruct u as [|x u] using rev_ind.
      * apply app_inj_tail in E2 as [E2 _]. exists []. rewrite app_nil_r. auto.
      * exists ("]" :: u). split; [exact E1|]. change (l ++ "]" :: u ++ [x]) with (l ++ ("]" :: u) ++ [x]) in E2.
        rewrite app_assoc in E2. apply app_inj_tail in E2 as [E2 _]. exact E2.
  - exfalso. pose proof (leaf_clean importable [","] a Hp Hb) as Hc. apply clean_bracket_free in Hc as [_ Hc].
    rewrite E, has_app, has_cons in Hc. change (Ascii.eqb "]" "]") with true in Hc. cbn [orb] in Hc.
    rewrite orb_true_r in Hc. discriminate.
Qed.

Lemma mapM_last_err {A B} (f : A -> res B) l y e : f y = Err e -> exists e', mapM f (l ++ [y]) = Err e'.
Proof.
  intros Hy; induction l as [|x l IH]; cbn [app mapM].
  - rewrite Hy. exists e; reflexivity.
  - destruct (f x) as [b|e0]; [|exists e0; reflexivity]. cbn [bind]. destruct IH as [e' ->]. exists e'; reflexivity.
Qed.

Lemma has_prefix c s t : has c (s ++ t) = false -> has c s = false.
Proof. rewrite has_app. intros H; apply orb_false_iff in H; apply H. Qed.

Lemma enum_no_close values : Forall (fun v => clean v = true /\ has "'" v = false) values -> has "]" (body [","] (Enum values)) = false.
Proof.
  intros H. cbn [body]. rewrite has_cons, has_app. rewrite join_has; [reflexivity|reflexivity|].
  rewrite Forall_forall in *. intros v Hv. apply clean_no; [apply (H v Hv)|cbn; auto].
Qed.

Lemma walk_prefix d s t d' : walk d (s ++ t) = Some d' -> exists e, walk d s = Some e.
Proof. rewrite walk_app. destruct (walk d s) as [e|]; [exists e; reflexivity|discriminate]. Qed.

Lemma truncated a : plain a -> bracketed a = true -> forall b w, body [","] a = b ++ w -> before ellipsis b = None ->
  forall fuel, exists e, deserialize_str fuel (name_of a ++ "[" :: b) = Err e.
Proof.
  induction a as [b0|n| | | | |n|h args IH|x IH|l] using ann_ind'; intros Hp Hb b w Hbody Hq fuel; try discriminate;
    (destruct fuel as [|fuel]; [exists OutOfFuel; reflexivity|]);
    match goal with |- context [name_of ?a ++ _] =>
      assert (Hbf : bracket_free (name_of a)) by (apply clean_bracket_free, name_of_clean);
      assert (Hnl : has newline b = false)
        by (apply (has_prefix newline b w); rewrite <- Hbody; apply (body_has importable); cbn; auto);
      assert (Hsp : has " " b = false)
        by (apply (has_prefix " " b w); rewrite <- Hbody; apply (body_has importable); cbn; auto);
      destruct (lookup_name importable a Hp eq_refl) as (c & Hl & Hc & Ec)
    end;
    (destruct (has "]" b) eqn:Hcl; [|exists AttributeError; apply deserialize_unclosed; assumption]);
    destruct (last_close b Hcl) as (r & t & -> & Ht).
  - rewrite (deserialize_shape importable fuel _ r t c) by assumption. subst c.
    assert (Hsr : has " " r = false) by (apply (has_prefix _ _ _ Hsp)). rewrite remove_id by exact Hsr.
    cbn [body name_of] in *. rewrite <- app_assoc in Hbody. cbn [app] in Hbody.
    destruct (prefix_join _ _ _ Hbody) as (pre & p & post & y & u & Eparts & Er & Ep).
    inversion Hp as [| | | |h' args' Hh Har Hu Hargs| |]; subst h' args'.
    (* the argument cut *)
    assert (exists pre' Y post', args = pre' ++ Y :: post' /\ pre = map (pr [","]) pre' /\ p = pr [","] Y) as (pre' & Y & post' & Eargs & Epre & EY).
    { clear - Eparts. revert pre Eparts; induction args as [|a args IHa]; intros pre E; [destruct pre; discriminate|].
      destruct pre as [|q pre]; cbn [map app] in E.
      - injection E as E1 E2. exists [], a, args. auto.
      - injection E as E1 E2. destruct (IHa pre E2) as (pre' & Y & post' & -> & -> & ->).
        exists (a :: pre'), Y, post'. cbn. rewrite E1. auto. }
    assert (HpY : plain Y) by (rewrite Forall_forall in Hargs; apply Hargs; rewrite Eargs; apply in_elt).
    rewrite EY in Ep. destruct (cut_inside Y y u HpY Ep) as (HbY & b' & w' & Ey & Ebody).
    assert (Hne : y <> []) by (rewrite Ey; destruct (name_of Y); discriminate).
    destruct (walk_prefix 0 y ("]" :: u) 0) as [d Hd]; [rewrite <- Ep; apply (walk_pr importable), HpY|].
    assert (Hex : extract_args r = pre ++ [y]).
    { rewrite Er. apply (extract_pieces pre y d); auto; [|rewrite <- Er; exact Hsr].
      rewrite Epre. apply Forall_forall. intros q Hin. apply in_map_iff in Hin as (a & <- & Ha).
      apply (walk_pr importable). rewrite Forall_forall in Hargs. apply Hargs. rewrite Eargs. apply in_or_app; left; exact Ha. }
    assert (Hqr : before ellipsis r = None) by (apply (before_part r [] ("]" :: t)); exact Hq).
    rewrite from_raw_head; [|exact Hh|intros _; exact Hqr|rewrite Hex; destruct pre; discriminate].
    rewrite Hex. rewrite Forall_forall in IH.
    destruct (IH Y ltac:(rewrite Eargs; apply in_elt) HpY HbY b' w' Ebody) with (fuel := fuel) as [e He].
    { rewrite Er, Ey in Hqr. unfold pieces_then in Hqr.
      apply (before_part b' (concat (map (fun p => p ++ [","]) pre) ++ name_of Y ++ ["["]) []).
      rewrite app_nil_r, <- !app_assoc. exact Hqr. }
    rewrite <- Ey in He. destruct (mapM_last_err (deserialize_str fuel) pre y e He) as [e' ->]. exists e'; reflexivity.
  - rewrite (deserialize_shape importable fuel _ r t c) by assumption. subst c.
    assert (Hsr : has " " r = false) by (apply (has_prefix _ _ _ Hsp)). rewrite remove_id by exact Hsr.
    cbn [body name_of] in *. rewrite <- app_assoc in Hbody. cbn [app] in Hbody.
    inversion Hp as [| | | | |a' Hx|]; subst a'.
    assert (exists u, pr [","] x = r ++ "]" :: u) as [u Eu].
    { apply app_eq in Hbody as [(l & E1 & E2)|(l & E1 & E2)].
      - destruct l as [|c l]; [discriminate|]. injection E2 as <- E2. exists l. exact E1.
      - exfalso. assert (H : has "]" ("," :: chars "...") = false) by reflexivity.
        cbn [app] in E2. rewrite E2, has_app, has_cons in H. change (Ascii.eqb "]" "]") with true in H. cbn [orb] in H.
        rewrite orb_true_r in H. discriminate. }
    destruct (cut_inside x r u Hx Eu) as (HbY & b' & w' & Ey & Ebody).
    assert (Hne : r <> []) by (rewrite Ey; destruct (name_of x); discriminate).
    destruct (walk_prefix 0 r ("]" :: u) 0) as [d Hd]; [rewrite <- Eu; apply (walk_pr importable), Hx|].
    assert (Hex : extract_args r = [r]).
    { apply (extract_pieces [] r d); auto. }
    assert (Hqr : before ellipsis r = None) by (apply (before_part r [] ("]" :: t)); exact Hq).
    change CTuple with (class_of HTuple). rewrite from_raw_head; [|reflexivity|intros _; exact Hqr|rewrite Hex; discriminate].
    rewrite Hex. destruct (IH Hx HbY b' w' Ebody) with (fuel := fuel) as [e He].
    { rewrite Ey in Hqr. apply (before_part b' (name_of x ++ ["["]) []). rewrite app_nil_r, <- app_assoc. exact Hqr. }
    rewrite <- Ey in He. cbn [mapM]. rewrite He. exists e; reflexivity.
  - exfalso. inversion Hp as [| | | | | |l' _ _ Hv]; subst l'. pose proof (enum_no_close l Hv) as H. rewrite Hbody in H.
    apply has_prefix in H. congruence.
Qed.

(** * Where the first ellipsis is *)
Lemma quiet_pieces pre y : Forall (fun p => quiet p /\ hd "." p <> ".") pre -> quiet y -> hd "." y <> "." -> quiet (pieces_then pre y).
Proof. intros H Hy Hd. rewrite <- join_pieces. apply quiet_join. apply Forall_app; split; [exact H|]. constructor; [auto|constructor]. Qed.

Lemma name_first a : bracketed a = true -> exists c s, name_of a = c :: s /\ c <> ".".
Proof. destruct a; intros H; try discriminate; [destruct h|..]; eexists; eexists; (split; [reflexivity|discriminate]). Qed.

Lemma occurs a : plain a -> repeats a = true -> bracketed a = true /\
  exists b v, body [","] a = b ++ ellipsis ++ v /\ quiet b.
Proof.
  induction a as [b0|n| | | | |n|h args IH|x IH|l] using ann_ind'; intros Hp Hr; try discriminate; (split; [reflexivity|]).
  - inversion Hp as [| | | |h' args' Hh Har Hu Hargs| |]; subst h' args'. cbn [repeats] in Hr. clear Hp Har Hu.
    assert (exists pre Y post, args = pre ++ Y :: post /\ repeats Y = true /\ Forall (fun a => repeats a = false) pre) as (pre & Y & post & Eargs & HY & Hpre).
    { clear - Hr. induction args as [|a args IHa]; [discriminate|]. cbn [existsb] in Hr. destruct (repeats a) eqn:E.
      - exists [], a, args. repeat split; auto.
      - destruct (IHa Hr) as (pre & Y & post & -> & H1 & H2). exists (a :: pre), Y, post. repeat split; auto. }
    rewrite Forall_forall in *.
    assert (HpY : plain Y) by (apply Hargs; rewrite Eargs; apply in_elt).
    destruct (IH Y ltac:(rewrite Eargs; apply in_elt) HpY HY) as (HbY & b & v & Eb & Hb).
    exists (pieces_then (map (pr [","]) pre) (name_of Y ++ "[" :: b)).
    exists (v ++ ["]"] ++ match post with [] => [] | _ => [","] ++ join [","] (map (pr [","]) post) end). split.
    + cbn [body]. rewrite Eargs, map_app. cbn [map].
      assert (J : forall (l : list str) (y : str) (m : list str), join [","] (l ++ y :: m) = pieces_then l y ++ match m with [] => [] | _ => [","] ++ join [","] m end).
      { clear. intros l y m. unfold pieces_then. induction l as [|p l IHl].
        - cbn. destruct m; [rewrite app_nil_r; reflexivity|reflexivity].
        - cbn [app join map concat]. rewrite IHl. destruct (l ++ y :: m) eqn:E; [destruct l; discriminate|].
          rewrite <- !app_assoc. reflexivity. }
      rewrite J. rewrite (pr_shape [","] Y HbY), Eb. unfold pieces_then. rewrite <- !app_assoc. cbn [app]. do 3 f_equal.
      rewrite <- !app_assoc. do 3 f_equal. cbn [app]. f_equal. destruct post; reflexivity.
    + apply quiet_pieces.
      * rewrite Forall_forall in *. intros p Hin. apply in_map_iff in Hin as (a & <- & Ha).
        assert (plain a) by (apply Hargs; rewrite Eargs; apply in_or_app; left; exact Ha).
        split; [apply (quiet_pr importable); auto|apply (pr_first importable); auto].
      * apply quiet_app; [apply quiet_no_comma, clean_no; [apply name_of_clean|cbn; auto]|]. split; [discriminate|exact Hb].
      * destruct (name_first Y HbY) as (c & s & -> & Hc). exact Hc.
  - inversion Hp as [| | | | |a' Hx|]; subst a'. destruct (repeats x) eqn:Hrx.
    + destruct (IH Hx eq_refl) as (HbY & b & v & Eb & Hb).
      exists (name_of x ++ "[" :: b), (v ++ ["]"] ++ ellipsis). split.
      * cbn [body]. rewrite (pr_shape [","] x HbY), Eb. rewrite <- !app_assoc. cbn [app]. do 2 f_equal.
        rewrite <- !app_assoc. reflexivity.
      * apply quiet_app; [apply quiet_no_comma, clean_no; [apply name_of_clean|cbn; auto]|]. split; [discriminate|exact Hb].
    + exists (pr [","] x), []. split; [reflexivity|]. apply (quiet_pr importable); assumption.
Qed.

(** * Not read back *)
Lemma repeat_nested fuel x : plain x -> repeats x = true -> exists e, deserialize_str fuel (pr [","] (Repeat x)) = Err e.
Proof.
  intros Hx Hr. destruct fuel as [|fuel]; [exists OutOfFuel; reflexivity|].
  rewrite (deserialize_pr_raw importable) by (auto; apply plain_repeat, Hx). cbn [from_raw].
  destruct (occurs x Hx Hr) as (Hb & b & v & Eb & Hq).
  cbn [body]. rewrite (pr_shape [","] x Hb), Eb.
  replace ((name_of x ++ "[" :: (b ++ ellipsis ++ v) ++ ["]"]) ++ [","] ++ chars "...")
    with ((name_of x ++ "[" :: b) ++ ellipsis ++ (v ++ ["]"] ++ ellipsis)).
  - rewrite before_some.
    + destruct (truncated x Hx Hb b (ellipsis ++ v) Eb (before_none b Hq) fuel) as [e ->]. exists e; reflexivity.
    + apply quiet_app; [apply quiet_no_comma, clean_no; [apply name_of_clean|cbn; auto]|]. split; [discriminate|exact Hq].
  - rewrite <- !app_assoc. cbn [app]. do 2 f_equal. rewrite <- !app_assoc. reflexivity.
Qed.

Lemma tuple_nested fuel args : plain (App HTuple args) -> existsb repeats args = true ->
  (exists e, deserialize_str fuel (pr [","] (App HTuple args)) = Err e) \/
  (exists x, deserialize_str fuel (pr [","] (App HTuple args)) = Ok (Repeat x)).
Proof.
  intros Hp Hr. destruct fuel as [|fuel]; [left; exists OutOfFuel; reflexivity|].
  rewrite (deserialize_pr_raw importable) by (auto; reflexivity). cbn [from_raw class_of].
  destruct (occurs (App HTuple args) Hp Hr) as (_ & b & v & Eb & Hq). rewrite Eb, before_some by exact Hq.
  destruct (deserialize_str fuel b) as [x|e]; [right; exists x|left; exists e]; reflexivity.
Qed.

Lemma make_head h l a : make h l = Ok a -> h <> HUnion -> a = App h l.
Proof.
  intros H Hh. destruct h; try congruence; cbn [make] in H;
    try (destruct l as [|x [|y l]]; congruence); try congruence.
  destruct l as [|x [|y [|z l]]]; congruence.
Qed.

Lemma not_union fuel a a' : plain a -> is_union a = false -> deserialize_str fuel (pr [","] a) = Ok a' -> is_union a' = false.
Proof.
  intros Hp Hu H. destruct fuel as [|fuel]; [discriminate|]. destruct (bracketed a) eqn:Hb.
  - rewrite (deserialize_pr_raw importable) in H by assumption.
    inversion Hp as [b0|n Hn| | |h args Hh Har Hun Hargs|x Hx|values]; subst; try discriminate.
    + assert (Hh' : h <> HUnion) by (intros ->; discriminate).
      destruct (extract_body importable h args Hp) as [He Hne].
      destruct (before ellipsis (body [","] (App h args))) as [l|] eqn:Eb.
      * destruct (head_beq h HTuple) eqn:Et.
        -- apply head_beq_eq in Et; subst h. cbn [class_of from_raw] in H. rewrite Eb in H.
           destruct (deserialize_str fuel l); [|discriminate]. injection H as <-. reflexivity.
        -- rewrite from_raw_head in H; [|exact Hh|intros ->; discriminate|rewrite He; exact Hne].
           destruct (mapM _ _) as [l'|]; [|discriminate]. cbn [bind] in H. apply make_head in H; [|exact Hh'].
           subst a'. destruct h; try reflexivity. congruence.
      * rewrite from_raw_head in H; [|exact Hh|intros _; exact Eb|rewrite He; exact Hne].
        destruct (mapM _ _) as [l'|]; [|discriminate]. cbn [bind] in H. apply make_head in H; [|exact Hh'].
        subst a'. destruct h; try reflexivity. congruence.
    + cbn [from_raw] in H. destruct (before _ _) as [l|].
      * destruct (deserialize_str fuel l); [|discriminate]. injection H as <-. reflexivity.
      * destruct (mapM _ _) as [l'|]; [|discriminate]. injection H as <-. reflexivity.
    + cbn [from_raw] in H. injection H as <-. reflexivity.
  - rewrite (leaf_back importable) in H by assumption. injection H as <-. exact Hu.
Qed.

Lemma mapM_pr fuel args args' : mapM (deserialize_str fuel) (map (pr [","]) args) = Ok args' ->
  Forall2 (fun a a' => deserialize_str fuel (pr [","] a) = Ok a') args args'.
Proof.
  revert args'; induction args as [|a args IH]; intros args' H; cbn [map mapM] in H.
  - injection H as <-. constructor.
  - destruct (deserialize_str fuel (pr [","] a)) as [x|] eqn:E; [|discriminate]. cbn [bind] in H.
    destruct (mapM _ _) as [l|] eqn:E2; [|discriminate]. injection H as <-. constructor; [exact E|]. apply IH. reflexivity.
Qed.

Lemma not_back fuel a : plain a -> fine a = false -> deserialize_str fuel (pr [","] a) <> Ok a.
Proof.
  revert fuel; induction a as [b0|n| | | | |n|h args IH|x IH|l] using ann_ind'; intros fuel Hp Hf H; try discriminate.
  - destruct (head_beq h HTuple && existsb repeats args) eqn:Et.
    + apply andb_true_iff in Et as [E1 E2]. apply head_beq_eq in E1; subst h.
      destruct (tuple_nested fuel args Hp E2) as [[e E]|[y E]]; rewrite E in H; discriminate.
    + assert (Hbad : forallb fine args = false).
      { cbn [fine] in Hf. destruct (head_beq h HTuple); cbn [andb] in Et; [rewrite Et in Hf|]; exact Hf. }
      assert (exists a, In a args /\ fine a = false) as (a & Ha & Hfa).
      { clear - Hbad. induction args as [|a args IHa]; [discriminate|]. cbn [forallb] in Hbad. destruct (fine a) eqn:E.
        - destruct (IHa Hbad) as (b & Hb & Hfb). exists b; split; [right; exact Hb|exact Hfb].
        - exists a; split; [left; reflexivity|exact E]. }
      destruct fuel as [|fuel]; [discriminate|]. rewrite (deserialize_pr_raw importable) in H by (auto; reflexivity). cbn [name_of] in H.
      destruct (extract_body importable h args Hp) as [He Hne].
      assert (Hpa := Hp). inversion Hpa as [| | | |h' args' Hh Har Hu Hargs| |]; subst h' args'.
      rewrite from_raw_head in H; [|exact Hh| |rewrite He; exact Hne].
      2:{ intros ->. change (head_beq HTuple HTuple) with true in Et. cbn [andb] in Et.
          apply before_none, (quiet_body importable); assumption. }
      rewrite He in H. destruct (mapM _ _) as [args'|] eqn:Em; [|discriminate]. cbn [bind] in H.
      apply mapM_pr in Em.
      assert (args' = args).
      { destruct (head_beq h HUnion) eqn:Eu.
        - apply head_beq_eq in Eu; subst h. destruct (Hu eq_refl) as [Hnd Hnu]. cbn [make] in H. unfold make_union in H.
          assert (Hnu' : Forall (fun a => is_union a = false) args').
          { clear - Em Hnu Hargs. revert Hnu Hargs. induction Em as [|x y l m Hxy Em IHm]; intros Hnu Hargs; [constructor|].
            inversion Hnu; inversion Hargs; subst. constructor; [|auto]. eapply not_union; eauto. }
          assert (E : flatten args' = args').
          { clear - Hnu'. induction Hnu' as [|a l Ha Hl IHl]; [reflexivity|]. unfold flatten in *. cbn [flat_map]. rewrite IHl.
            destruct a as [| | | | | | |h m| |]; try reflexivity. destruct h; try reflexivity. discriminate. }
          rewrite E in H. assert (Hlen : List.length args' = List.length args) by (clear - Em; induction Em; cbn; congruence).
          pose proof (dedup_length ann_eqb args' []) as Hle.
          destruct (dedup ann_eqb [] args') as [|d1 [|d2 ds]] eqn:Ed; [discriminate| |].
          + exfalso. injection H as ->.
            assert (Hin : In (App HUnion args) (dedup ann_eqb [] args')) by (rewrite Ed; left; reflexivity).
            assert (In (App HUnion args) args').
            { clear - Hin. revert Hin. generalize (@nil ann). induction args' as [|z l IHl]; intros seen Hin; [destruct Hin|].
              cbn [dedup] in Hin. destruct (memb ann_eqb z seen); [right; apply (IHl seen), Hin|].
              destruct Hin as [->|Hin]; [left; reflexivity|right; apply (IHl (z :: seen)), Hin]. }
            rewrite Forall_forall in Hnu'. specialize (Hnu' _ H). discriminate.
          + injection H as H. rewrite <- Ed in H. rewrite <- H in Hlen. symmetry in Hlen. apply dedup_same_length in Hlen. congruence.
        - apply make_head in H; [injection H; auto|]. intros ->. discriminate. }
      subst args'. rewrite Forall_forall in IH. rewrite Forall_forall in Hargs. apply (IH a Ha fuel (Hargs a Ha) Hfa).
      clear - Em Ha. assert (G : forall l m, Forall2 (fun a a' => deserialize_str fuel (pr [","] a) = Ok a') l m -> l = m -> In a l -> deserialize_str fuel (pr [","] a) = Ok a).
      { intros l m HF. induction HF as [|x y l m Hxy HF IHF]; intros E Hin; [destruct Hin|]. injection E as <- E.
        destruct Hin as [->|Hin]; auto. }
      apply (G args args Em eq_refl Ha).
  - inversion Hp as [| | | | |a' Hx|]; subst a'. cbn [fine] in Hf. apply negb_false_iff in Hf.
    destruct (repeat_nested fuel x Hx Hf) as [e E]. rewrite E in H. discriminate.
Qed.

(** * Enough fuel *)
Lemma remove_length c s : List.length (remove_char c s) <= List.length s.
Proof. unfold remove_char. induction s as [|d s IH]; cbn [filter List.length]; [lia|]. destruct (negb _); cbn [List.length]; lia. Qed.

Lemma take_while_length f s : List.length (take_while f s) <= List.length s.
Proof. induction s as [|c s IH]; cbn [take_while List.length]; [lia|]. destruct (f c); cbn [List.length]; lia. Qed.
Lemma drop_while_length f s : List.length (drop_while f s) <= List.length s.
Proof. induction s as [|c s IH]; cbn [drop_while List.length]; [lia|]. destruct (f c); cbn [List.length]; lia. Qed.
Lemma blc_length s g : before_last_close s = Some g -> List.length g < List.length s.
Proof.
  revert g; induction s as [|c s IH]; intros g; cbn [before_last_close]; [discriminate|].
  destruct (before_last_close s) as [g'|].
  - intros H; injection H as <-. specialize (IH g' eq_refl). cbn [List.length]. lia.
  - destruct (Ascii.eqb c "]"); [|discriminate]. intros H; injection H as <-. cbn [List.length]. lia.
Qed.
Lemma regexp_length s n g : regexp s = Some (n, g) -> List.length g < List.length s.
Proof.
  unfold regexp. destruct (drop_while _ s) as [|c rest] eqn:E; [discriminate|].
  destruct (Ascii.eqb c "["); [|discriminate]. destruct (before_last_close _) as [g'|] eqn:Eb; [|discriminate].
  intros H; injection H as _ <-. apply blc_length in Eb. pose proof (take_while_length (fun c => negb (Ascii.eqb c newline)) rest).
  pose proof (drop_while_length (fun c => negb (is_bracket c)) s) as Hd. rewrite E in Hd. cbn [List.length] in Hd. lia.
Qed.
Lemma raw_args_length s raw : s <> [] -> raw_args s = Ok raw -> List.length raw < List.length s.
Proof.
  intros Hne. unfold raw_args. destruct (_ && _).
  - destruct (regexp s) as [[n g]|] eqn:E; [|discriminate]. cbn [of_option bind snd]. intros H; injection H as <-.
    apply regexp_length in E. pose proof (remove_length " " g). lia.
  - intros H; injection H as <-. destruct s; [congruence|cbn; lia].
Qed.
Lemma extract_loop_length s : forall opened closed current arguments p bound,
  (forall q, In q arguments -> List.length q <= bound) -> List.length current + List.length s <= bound ->
  In p (extract_loop s opened closed current arguments) -> List.length p <= bound.
Proof.
  induction s as [|c s IH]; intros opened closed current arguments p bound Ha Hc Hin; cbn [extract_loop] in Hin.
  - destruct current as [|x cur]; [auto|]. apply in_app_or in Hin as [Hin|[<-|[]]]; [auto|]. cbn [List.length] in *. lia.
  - cbn [List.length] in Hc. destruct (_ && _).
    + eapply IH; [| |exact Hin]; [|cbn [List.length]; lia].
      intros q Hq. apply in_app_or in Hq as [Hq|[<-|[]]]; [auto|lia].
    + eapply IH; [| |exact Hin]; [exact Ha|]. rewrite app_length. cbn [List.length]. lia.
Qed.
Lemma extract_length s p : In p (extract_args s) -> List.length p <= List.length s.
Proof.
  unfold extract_args. intros H. eapply extract_loop_length in H; [exact H| |].
  - intros q [].
  - pose proof (remove_length " " s). cbn [List.length]. lia.
Qed.
Lemma before_length p s u : before p s = Some u -> List.length u <= List.length s.
Proof.
  revert u; induction s as [|c s IH]; intros u; cbn [before].
  - destruct (starts_with p []); [intros H; injection H as <-; cbn; lia|discriminate].
  - destruct (starts_with p (c :: s)); [intros H; injection H as <-; cbn; lia|].
    destruct (before p s) as [w|]; [|discriminate]. intros H; injection H as <-. specialize (IH w eq_refl). cbn [List.length]. lia.
Qed.

Lemma make_no_fuel h l : make h l <> Err OutOfFuel.
Proof.
  unfold make, make_union. destruct h; try discriminate;
    try (destruct (dedup _ _ _) as [|a [|b m]]; discriminate); destruct l as [|a [|b [|c l]]]; discriminate.
Qed.
Lemma mapM_no_fuel {A B} (f : A -> res B) l : (forall x, In x l -> f x <> Err OutOfFuel) -> mapM f l <> Err OutOfFuel.
Proof.
  induction l as [|x l IH]; intros H; cbn [mapM]; [discriminate|].
  destruct (f x) as [y|e] eqn:E; cbn [bind].
  - destruct (mapM f l) as [ys|e]; cbn [bind]; [discriminate|]. intros He. injection He as ->. apply IH; [|reflexivity].
    intros z Hz. apply H. right; exact Hz.
  - intros He. injection He as ->. apply (H x); [left; reflexivity|exact E].
Qed.

Lemma enough_fuel fuel : forall s, List.length s < fuel -> deserialize_str fuel s <> Err OutOfFuel.
Proof.
  induction fuel as [|fuel IH]; intros s Hs; [lia|].
  assert (Hargs : s <> [] -> args_from_serialized (deserialize_str fuel) s <> Err OutOfFuel).
  { intros Hne. unfold args_from_serialized. destruct (raw_args s) as [raw|e] eqn:Er; cbn [bind].
    - apply mapM_no_fuel. intros p Hp. apply IH. apply raw_args_length in Er; [|exact Hne]. apply extract_length in Hp. lia.
    - unfold raw_args in Er. destruct (_ && _); [|discriminate]. destruct (regexp s); [discriminate|]. injection Er as <-. discriminate. }
  assert (Hgen : forall h, s <> [] -> (let* args := args_from_serialized (deserialize_str fuel) s in make h args) <> Err OutOfFuel).
  { intros h Hne. specialize (Hargs Hne). destruct (args_from_serialized _ s); cbn [bind]; [apply make_no_fuel|congruence]. }
  assert (Hc : forall c, s <> [] -> annotation_from_serialized (deserialize_str fuel) c s <> Err OutOfFuel).
  { intros c Hne. unfold annotation_from_serialized. destruct c; try apply Hgen, Hne.
    - unfold types_from_string. destruct (lookup _ _); discriminate.
    - destruct (raw_args s) as [raw|e] eqn:Er; cbn [bind].
      + destruct (before _ raw) as [u|] eqn:Eb; [|apply Hgen, Hne].
        apply before_length in Eb. apply raw_args_length in Er; [|exact Hne].
        specialize (IH u). destruct (deserialize_str fuel u) as [a|e]; cbn [bind]; [discriminate|]. intros E; injection E as ->. apply IH; [lia|reflexivity].
      + unfold raw_args in Er. destruct (_ && _); [|discriminate]. destruct (regexp s); [discriminate|]. injection Er as <-. discriminate.
    - destruct (regexp s); cbn [of_option bind]; [apply Hgen, Hne|discriminate].
    - specialize (Hargs Hne). destruct (args_from_serialized _ s) as [args|e]; cbn [bind]; [|congruence].
      destruct args; [discriminate|apply make_no_fuel].
    - destruct (regexp s); cbn [of_option bind]; [apply Hgen, Hne|discriminate].
    - destruct (raw_args s) as [raw|e] eqn:Er; cbn [bind]; [discriminate|].
      unfold raw_args in Er. destruct (_ && _); [|discriminate]. destruct (regexp s); [discriminate|]. injection Er as <-. discriminate. }
  assert (Hne : forall c, has c s = true -> s <> []) by (intros c H ->; discriminate).
  cbn [AnnotationModel.deserialize_str]. destruct (has "[" s) eqn:Ho.
  - destruct (regexp s) as [g|]; cbn [of_option bind]; [|discriminate].
    destruct (lookup (fst g) _) as [c|]; cbn [of_option bind]; [|discriminate]. apply Hc, (Hne _ Ho).
  - destruct (lookup s _) as [c|] eqn:El.
    + apply Hc. intros ->. discriminate.
    + unfold class_from_name. destruct (has "." s); [|destruct (str_eqb s (chars "None")); discriminate].
      destruct (str_eqb s (chars "typing.Any")); [discriminate|]. destruct (str_eqb s (chars "typing.Type")); [discriminate|].
      destruct (importable s); discriminate.
Qed.
End Nested.

(** C69: the markdown that describes objects, states and runs. *)
From Coq Require Import Ascii String List Bool Arith ZArith Lia Permutation.
From Verif Require Import Base BaseProofs TableModel DescribeModel DescribeSpec DescribeProofs.
From Verif Require AnnotationModel DocstringModel DocstringSpec DocxModel DocxSpec DocxProofs DocxProps TableProofs.
Import ListNotations.
Local Open Scope string_scope.
Local Open Scope list_scope.
Local Open Scope nat_scope.

(** ** Values *)
(** Values are told by what they hold; the order of the classes of a mixed sequence is that of a set. *)
Theorem C69_value : forall set_order, (forall l, Permutation l (set_order l)) ->
  forall v, v <> Complex -> v <> Dictionary [] -> exists s, value_to_str set_order v = Ok s /\ printed v s.
Proof. apply value_printed. Qed.

(** An empty dictionary is called an empty list. *)
Theorem C69_empty_dict_refuted : forall set_order, value_to_str set_order (Dictionary []) = Ok "empty list".
Proof. reflexivity. Qed.

(** Two runs of python can print the same mixed sequence in two ways. *)
Theorem C69_order_refuted : forall cls v w, identifier (class_name v) -> identifier (class_name w) -> class_name v <> class_name w ->
  exists order order', (forall l, Permutation l (order l)) /\ (forall l, Permutation l (order' l)) /\
    value_to_str order (Sequence cls [v; w]) = Ok ("2 [" ++ class_name v ++ ", " ++ class_name w ++ "]")%string /\
    value_to_str order' (Sequence cls [v; w]) = Ok ("2 [" ++ class_name w ++ ", " ++ class_name v ++ "]")%string /\
    value_to_str order (Sequence cls [v; w]) <> value_to_str order' (Sequence cls [v; w]).
Proof.
  intros cls v w Iv Iw D. exists (fun l => l), (@rev string). split; [auto|]. split; [apply Permutation_rev|].
  cbn [value_to_str sequence_to_str map remove_twice filter List.length]. destruct (String.eqb_spec (class_name v) (class_name w)); [contradiction|]. cbn [negb rev app].
  change (nat_str 2) with "2". cbn [join String.concat]. split; [|split].
  - cbn [append]. rewrite !TableProofs.sapp_assoc. reflexivity.
  - cbn [append]. rewrite !TableProofs.sapp_assoc. reflexivity.
  - intros E. injection E as E. apply D.
    assert (K : forall a b x y, ~ In ","%char (list_ascii_of_string a) -> ~ In ","%char (list_ascii_of_string b) ->
      (a ++ String "," x)%string = (b ++ String "," y)%string -> a = b).
    { clear. induction a as [|c a IH]; intros [|d b] x y N M E; cbn in *; auto.
      - injection E as <- _. exfalso. apply M. left. auto.
      - injection E as -> _. exfalso. apply N. left. auto.
      - injection E as <- E. f_equal. eapply IH; eauto. }
    assert (NC : forall s, identifier s -> ~ In ","%char (list_ascii_of_string s)).
    { intros s [_ H] I. apply H in I. cbn in I. intuition discriminate. }
    rewrite !TableProofs.sapp_assoc in E. cbn [append] in E. eapply K; [| |exact E]; auto.
Qed.

(** An object has a description exactly when no attribute is a complex number. *)
Theorem C69_complex_refuted : forall set_order name cls attributes,
  (~ (exists a, In (a, Complex) attributes) -> exists t, to_markdown set_order name cls attributes = Ok t) /\
  ((exists a, In (a, Complex) attributes) ->
     to_markdown set_order name cls attributes = Err TypeError /\ to_docx set_order name cls attributes = Err TypeError).
Proof.
  intros set_order name cls attributes. split.
  - intros N. assert (F : exists texts, Forall2 (fun av s => value_to_str set_order (snd av) = Ok s) attributes texts).
    { induction attributes as [|[a v] l IH]; [exists []; constructor|]. destruct IH as [texts F]; [intros [b I]; apply N; exists b; right; auto|].
      assert (NC : v <> Complex) by (intros ->; apply N; exists a; left; auto). destruct v; try congruence; eexists (_ :: texts); (constructor; [reflexivity|auto]). }
    destruct F as [texts F]. rewrite (to_markdown_is _ _ _ _ texts) by auto. eauto.
  - intros [a I].
    assert (M : object_matrix set_order attributes = Err TypeError).
    { unfold object_matrix. induction attributes as [|[b v] l IH]; [destruct I|]. cbn [mapM fst snd]. destruct I as [E|I].
      - injection E as -> ->. reflexivity.
      - specialize (IH I). destruct (value_to_str set_order v) as [s|e] eqn:Ev; cbn [bind].
        + rewrite IH. reflexivity.
        + destruct v; try discriminate. injection Ev as <-. reflexivity. }
    unfold to_docx, to_markdown, object_table. rewrite M. auto.
Qed.

(** ** Documents *)
Section Documents.
Import AnnotationModel DocstringSpec DocxModel DocxSpec.
Local Open Scope string_scope.
Local Open Scope list_scope.
Local Open Scope nat_scope.

Lemma occurs_across a c b : c <> "-"%char -> occurs dashes (a ++ c :: b) -> occurs dashes a \/ occurs dashes b.
Proof.
  intros N (u & v & E). revert u E. induction a as [|x a IH]; intros u E.
  - destruct u as [|y u]; cbn in E; [congruence|]. injection E as -> E. right. exists u, v. exact E.
  - destruct u as [|y u]; cbn in E.
    + injection E as -> E. destruct a as [|y a]; cbn in E; [congruence|]. injection E as -> E. destruct a as [|z a]; cbn in E; [congruence|].
      injection E as -> E. left. exists [], a. reflexivity.
    + injection E as -> E. destruct (IH u E) as [(u' & v' & ->)|R]; [left; exists (y :: u'), v'; reflexivity|right; auto].
Qed.
Lemma occurs_in s : occurs dashes s -> In "-"%char s.
Proof. intros (u & v & ->). apply in_or_app. right. left. reflexivity. Qed.

Lemma identifier_chars s c : identifier s -> In c (chars s) -> c <> "-"%char /\ c <> "#"%char /\ c <> "|"%char /\ c <> newline /\ ~ white c.
Proof.
  intros [_ H] I. apply H in I. repeat split; intros K; try (subst c; cbn in I; intuition discriminate).
  unfold white in K. cbn in K. cbn in I. intuition (subst; discriminate).
Qed.
Lemma identifier_ends s : identifier s -> exists c t d u, chars s = c :: t /\ chars s = u ++ [d].
Proof.
  intros [N _]. destruct (chars s) as [|c t] eqn:E; [destruct s; [congruence|discriminate]|].
  assert (X : c :: t <> []) by discriminate. destruct (exists_last X) as (u & d & Eu). exists c, t, d, u. auto.
Qed.

Lemma white_last (s t : str) : (exists c u, t = u ++ [c] /\ ~ white c) -> forall c u, s ++ t = u ++ [c] -> ~ white c.
Proof. intros (c & u & -> & W) d v E. rewrite app_assoc in E. apply app_inj_tail in E. destruct E as [_ <-]. auto. Qed.

Definition cell_free (s : str) : Prop := s <> [] /\ ~ In "|"%char s /\ ~ In newline s /\ ~ occurs dashes s.

Lemma cut_prefix s : exists p, (exists r, chars s = p ++ r) /\ (s <> "" -> p <> []) /\ (chars (cut s) = p \/ chars (cut s) = p ++ chars "...").
Proof.
  unfold cut. destruct (String.length s <=? 25).
  - exists (chars s). split; [exists []; rewrite app_nil_r; auto|]. split; [destruct s; [congruence|discriminate]|auto].
  - exists (chars (String.substring 0 25 s)). split; [|split; [destruct s; [congruence|discriminate]|right; apply chars_app]].
    generalize 25. clear. induction s as [|c s IH]; intros [|n]; cbn; try (eexists; reflexivity). destruct (IH n) as [r E]. exists r. f_equal. exact E.
Qed.

Lemma cell_free_cut s : cell_text s -> cell_free (chars (cut s)).
Proof.
  intros (N & P & L & D). destruct (cut_prefix s) as (p & (r & E) & _ & C).
  assert (NE : chars s <> []) by (destruct s; [congruence|discriminate]).
  assert (NP : p <> [] \/ chars (cut s) <> []).
  { right. unfold cut. destruct (String.length s <=? 25); [auto|]. rewrite chars_app. destruct (chars (String.substring 0 25 s)); discriminate. }
  assert (Dp : ~ occurs dashes p). { intros (u & v & ->). apply D. exists u, (v ++ r). rewrite E, <- !app_assoc. reflexivity. }
  assert (Ip : forall c, In c p -> In c (chars s)) by (intros c I; rewrite E; apply in_or_app; auto).
  destruct C as [C|C]; rewrite C in *.
  - split; [destruct NP; auto|]. split; [intros I; apply P; auto|]. split; [intros I; apply L; auto|auto].
  - split; [destruct p; discriminate|]. split; [|split].
    + intros I. apply in_app_or in I. destruct I as [I|I]; [apply P; auto|cbn in I; intuition discriminate].
    + intros I. apply in_app_or in I. destruct I as [I|I]; [apply L; auto|cbn in I; intuition discriminate].
    + intros O. apply occurs_across in O; [|discriminate]. destruct O as [O|O]; [auto|]. apply occurs_in in O. cbn in O. intuition discriminate.
Qed.

Lemma row_ordinary cells : cells <> [] -> Forall cell_text cells -> (exists s r, cells = s :: r /\ identifier s) -> ordinary (DocxSpec.Row (map cell cells)).
Proof.
  intros N F (s & r & E & I). cbn [ordinary]. split; [|split; [|split]].
  - apply Forall_map. eapply Forall_impl; [|exact F]. intros a H. unfold cell. rewrite !chars_app. destruct (cell_free_cut a H) as (_ & P & L & _).
    split; [discriminate|]. split; intros K; rewrite !in_app_iff in K; cbn in K; intuition discriminate.
  - destruct cells; [congruence|discriminate].
  - cbn [line_of]. intros O.
    assert (G : forall l, Forall cell_text l -> ~ occurs dashes (List.concat (map (fun c => c ++ ["|"%char]) (map cell l)))).
    { induction l as [|a l IH]; intros Fl Ol; cbn [map List.concat] in Ol; [apply occurs_in in Ol; destruct Ol|]. inversion Fl as [|? ? Ha Fl']; subst.
      rewrite <- app_assoc in Ol. cbn [app] in Ol. apply occurs_across in Ol; [|discriminate]. destruct Ol as [Ol|Ol]; [|apply IH; auto].
      unfold cell in Ol. rewrite !chars_app in Ol. change (chars " ") with [" "%char] in Ol. apply (occurs_across [] " "%char) in Ol; [|discriminate].
      destruct Ol as [Ol|Ol]; [apply occurs_in in Ol; destruct Ol|]. apply (occurs_across _ " "%char []) in Ol; [|discriminate].
      destruct Ol as [Ol|Ol]; [|apply occurs_in in Ol; destruct Ol]. destruct (cell_free_cut a Ha) as (_ & _ & _ & X). auto. }
    apply (occurs_across [] "|"%char) in O; [|discriminate]. destruct O as [O|O]; [apply occurs_in in O; destruct O|]. apply (G cells F O).
  - subst cells. cbn [map]. apply Exists_cons_hd. destruct (identifier_ends s I) as (c & t & _ & _ & Ec & _). exists c.
    assert (W := identifier_chars s c I). rewrite Ec in W. destruct (W (or_introl eq_refl)) as (A & _ & _ & _ & B). split; [|auto].
    unfold cell. rewrite !chars_app, !in_app_iff. right. left. destruct (cut_prefix s) as (p & (q & Ep) & NP & C). specialize (NP (proj1 I)).
    destruct p as [|x p]; [congruence|]. rewrite Ec in Ep. injection Ep as <- _. destruct C as [-> | ->]; left; auto.
Qed.

(** The document of an object. *)
Definition object_document (name cls : string) (rows : list (list string)) : document :=
  [DHeading (chars (" Object " ++ name ++ " of class " ++ cls)) 1; DHeading (chars " Attributes") 1; DPageBreak;
   DHeading (chars ("Object " ++ name ++ " of class " ++ cls)) 0;
   DParagraph (chars "This is a markdown file https://www.markdownguide.org/cheat-sheet/");
   DParagraph (chars "The good practice is to create a string python template and move the template to another python module");
   DParagraph (chars "(like templates.py) to avoid mix python code and markdown, as python syntax conflicts with markdown");
   DParagraph (chars ("You can substitute values with object attributes like the name of the object: " ++ name));
   DHeading (chars "Attributes") 0;
   DParagraph (chars ("Object " ++ name ++ " of class " ++ cls ++ " has the following attributes:"));
   DTable [[chars " Attribute "; chars " Type "; chars " Value "]]] ++ map (fun r => DTable [map cell r]) rows.

Lemma object_ordinary name cls rows : tidy (chars name) -> ~ In "#"%char (chars name) -> ~ occurs dashes (chars name) -> identifier cls ->
  Forall (fun r => exists a, exists l, r = a :: l /\ identifier a /\ Forall cell_text r) rows ->
  Forall ordinary (described_by name cls rows ++ [Blank]).
Proof.
  intros T H D C R.
  assert (CC := fun c => identifier_chars cls c C). destruct (identifier_ends cls C) as (c0 & t0 & d0 & u0 & Ec & Eu).
  assert (Dd : ~ white d0) by (apply CC; rewrite Eu; apply in_or_app; right; left; auto).
  assert (DC : ~ occurs dashes (chars cls)) by (intros O; apply occurs_in in O; apply CC in O; tauto).
  destruct T as (TN & TL & TF & TE).
  assert (D1 : forall tl, ~ In "-"%char tl -> ~ occurs dashes (chars "Object " ++ chars name ++ chars " of class " ++ chars cls ++ tl)).
  { intros tl Nt O. change (chars "Object ") with (chars "Object" ++ [" "%char]) in O. rewrite <- app_assoc in O. cbn [app] in O. apply occurs_across in O; [|discriminate].
    destruct O as [O|O]; [apply occurs_in in O; cbn in O; intuition discriminate|].
    change (chars " of class ") with (" "%char :: chars "of class" ++ [" "%char]) in O. cbn [app] in O. apply occurs_across in O; [|discriminate].
    destruct O as [O|O]; [auto|]. rewrite <- app_assoc in O. apply occurs_across in O; [|discriminate].
    destruct O as [O|O]; [apply occurs_in in O; cbn in O; intuition discriminate|].
    apply occurs_in in O. apply in_app_or in O. destruct O as [O|O]; [apply CC in O; tauto|auto]. }
  apply Forall_app. split; [|repeat constructor]. unfold described_by. apply Forall_app. split; [|apply Forall_app; split].
  - repeat apply Forall_cons; try apply Forall_nil; try exact Logic.I.
    + cbn [ordinary]. split; [lia|]. rewrite !chars_app. split; [|].
      * split; [discriminate|]. split; [|split].
        -- intros K. rewrite !in_app_iff in K. destruct K as [K|[K|[K|K]]]; [cbn in K; intuition discriminate|auto|cbn in K; intuition discriminate|apply CC in K; tauto].
        -- intros c t E. injection E as <- _. cbn. intuition discriminate.
        -- rewrite !app_assoc. apply white_last. exists d0, u0. auto.
      * intros K. rewrite !in_app_iff in K. destruct K as [K|[K|[K|K]]]; [cbn in K; intuition discriminate|auto|cbn in K; intuition discriminate|apply CC in K; tauto].
    + cbn [ordinary]. split; [|split; [|split]]; try (intros r E; discriminate).
      * split; [discriminate|]. split; [cbn; intuition discriminate|]. split; [intros c t E; injection E as <- _; cbn; intuition discriminate|].
        intros c t E. change (chars "This is a markdown file https://www.markdownguide.org/cheat-sheet/") with (chars "This is a markdown file https://www.markdownguide.org/cheat-sheet" ++ ["/"%char]) in E.
        apply app_inj_tail in E. destruct E as [_ <-]. cbn. intuition discriminate.
      * intros O. change (chars "This is a markdown file https://www.markdownguide.org/cheat-sheet/") with (chars "This is a markdown file https://www.markdownguide.org/cheat-" ++ "s"%char :: chars "heet/") in O.
        apply occurs_across in O; [|discriminate]. destruct O as [O|O]; [|apply occurs_in in O; cbn in O; intuition discriminate].
        change (chars "This is a markdown file https://www.markdownguide.org/cheat-") with (chars "This is a markdown file https://www.markdownguide.org/chea" ++ "t"%char :: chars "-") in O.
        apply occurs_across in O; [|discriminate]. destruct O as [O|O]; [apply occurs_in in O; cbn in O; intuition discriminate|]. destruct O as (u & v & E). apply (f_equal (@List.length ascii)) in E.
        rewrite !app_length in E. cbn in E. lia.
    + cbn [ordinary]. split; [|split; [|split]]; try (intros r E; discriminate).
      * split; [discriminate|]. split; [cbn; intuition discriminate|]. split; [intros c t E; injection E as <- _; cbn; intuition discriminate|].
        intros c t E. change (chars "The good practice is to create a string python template and move the template to another python module") with (chars "The good practice is to create a string python template and move the template to another python modul" ++ ["e"%char]) in E.
        apply app_inj_tail in E. destruct E as [_ <-]. cbn. intuition discriminate.
      * intros O. apply occurs_in in O. cbn in O. intuition discriminate.
    + cbn [ordinary]. split; [|split; [|split]]; try (intros r E; discriminate).
      * split; [discriminate|]. split; [cbn; intuition discriminate|]. split; [intros c t E; injection E as <- _; cbn; intuition discriminate|].
        intros c t E. change (chars "(like templates.py) to avoid mix python code and markdown, as python syntax conflicts with markdown") with (chars "(like templates.py) to avoid mix python code and markdown, as python syntax conflicts with markdow" ++ ["n"%char]) in E.
        apply app_inj_tail in E. destruct E as [_ <-]. cbn. intuition discriminate.
      * intros O. apply occurs_in in O. cbn in O. intuition discriminate.
    + cbn [ordinary]. rewrite chars_app. split; [|split; [|split]]; try (intros r E; discriminate).
      * split; [discriminate|]. split; [|split].
        -- intros K. apply in_app_or in K. destruct K as [K|K]; [cbn in K; intuition discriminate|auto].
        -- intros c t E. injection E as <- _. cbn. intuition discriminate.
        -- apply white_last. destruct (exists_last TN) as (u & d & Ed). exists d, u. split; auto. eapply TE; eauto.
      * intros O. change (chars "You can substitute values with object attributes like the name of the object: ") with (chars "You can substitute values with object attributes like the name of the object:" ++ [" "%char]) in O.
        rewrite <- app_assoc in O. cbn [app] in O. apply occurs_across in O; [|discriminate]. destruct O as [O|O]; [apply occurs_in in O; cbn in O; intuition discriminate|auto].
    + cbn [ordinary]. split; [lia|]. split; [|cbn; intuition discriminate]. split; [discriminate|]. split; [cbn; intuition discriminate|]. split.
      * intros c t E. injection E as <- _. cbn. intuition discriminate.
      * intros c t E. change (chars "Attributes") with (chars "Attribute" ++ ["s"%char]) in E. apply app_inj_tail in E. destruct E as [_ <-]. cbn. intuition discriminate.
    + cbn [ordinary]. rewrite !chars_app. split; [|split; [|split]]; try (intros r E; discriminate).
      * split; [discriminate|]. split; [|split].
        -- intros K. rewrite !in_app_iff in K. destruct K as [K|[K|[K|[K|K]]]]; [cbn in K; intuition discriminate|auto|cbn in K; intuition discriminate|apply CC in K; tauto|cbn in K; intuition discriminate].
        -- intros c t E. injection E as <- _. cbn. intuition discriminate.
        -- rewrite !app_assoc. apply white_last. exists ":"%char, (chars " has the following attributes"). split; [reflexivity|]. cbn. intuition discriminate.
      * apply D1. cbn; intuition discriminate.
  - apply Forall_cons; [|apply Forall_cons].
    + change (map pad ["Attribute"; "Type"; "Value"]) with (map cell ["Attribute"; "Type"; "Value"]).
      assert (I : forall s, In s ["Attribute"; "Type"; "Value"] -> identifier s).
      { intros s K. cbn in K. destruct K as [<-|[<-|[<-|[]]]]; (split; [discriminate|]); intros c J; cbn in J; cbn; intuition (subst; auto 70). }
      apply row_ordinary; [discriminate| |exists "Attribute", ["Type"; "Value"]; split; auto; apply I; left; auto].
      apply Forall_forall. intros s K. assert (J := fun c => identifier_chars s c (I s K)).
      split; [apply I; auto|]. split; [intros L; apply J in L; tauto|]. split; [intros L; apply J in L; tauto|]. intros O. apply occurs_in, J in O. tauto.
    + cbn. lia.
    + apply Forall_map. eapply Forall_impl; [|exact R]. intros r (a & l & -> & Ia & Fr). apply row_ordinary; eauto. discriminate.
  - repeat constructor.
Qed.

(** The Word document of an object: its title and the one of its attributes, a page break, the text of the
    template and one table per attribute, with its name, its class and its text, cut when they are long. *)
Theorem C69_docx : forall set_order name cls attributes texts,
  tidy (chars name) -> ~ In "#"%char (chars name) -> ~ occurs dashes (chars name) -> identifier cls ->
  Forall2 (fun av s => value_to_str set_order (snd av) = Ok s /\ identifier (fst av) /\ identifier (class_name (snd av)) /\ cell_text s) attributes texts ->
  to_docx set_order name cls attributes
  = Ok (object_document name cls (map (fun avs => [fst (fst avs); class_name (snd (fst avs)); snd avs]) (combine attributes texts))).
Proof.
  intros set_order name cls attributes texts T H D C F. unfold to_docx.
  assert (F1 : Forall2 (fun av s => value_to_str set_order (snd av) = Ok s) attributes texts).
  { clear -F. induction F as [|? ? ? ? [? _]]; constructor; auto. }
  rewrite (to_markdown_is _ _ _ _ texts F1). cbn [bind].
  replace (map (fun avs => map text_to_str [fst (fst avs); class_name (snd (fst avs)); snd avs]) (combine attributes texts))
    with (map (fun avs : string * value * string => [fst (fst avs); class_name (snd (fst avs)); snd avs]) (combine attributes texts)).
  2:{ clear -F. induction F as [|av s l m (_ & [I _] & [J _] & [K _]) F IH]; [reflexivity|]. cbn [combine map fst snd]. rewrite IH. f_equal. f_equal; [|f_equal; [|f_equal]].
      - unfold text_to_str. destruct (String.eqb_spec (fst av) ""); congruence.
      - unfold text_to_str. destruct (String.eqb_spec (class_name (snd av)) ""); congruence.
      - unfold text_to_str. destruct (String.eqb_spec s ""); congruence. }
  set (rows := map _ (combine attributes texts)).
  assert (R : Forall (fun r => exists a, exists l, r = a :: l /\ identifier a /\ Forall cell_text r) rows).
  { unfold rows. clear -F. induction F as [|av s l m (_ & I & J & K) F IH]; [constructor|]. constructor; [|exact IH]. cbn [fst snd].
    exists (fst av), [class_name (snd av); s]. split; [reflexivity|]. split; [auto|].
    assert (X : forall x, identifier x -> cell_text x).
    { intros x Ix. assert (Y := fun c => identifier_chars x c Ix). split; [apply Ix|]. split; [intros L; apply Y in L; tauto|]. split; [intros L; apply Y in L; tauto|].
      intros O. apply occurs_in, Y in O. tauto. }
    auto. }
  rewrite object_lines, DocxProps.C68_document.
  - f_equal. unfold described_by, object_document. rewrite !flat_map_app. cbn [flat_map contents body app].
    assert (E1 : forall R0 : list (list string), flat_map contents (map (fun r => DocxSpec.Row (map cell r)) R0) = []) by (induction R0; auto). rewrite E1.
    assert (E2 : forall R0 : list (list string), flat_map body (map (fun r => DocxSpec.Row (map cell r)) R0) = map (fun r => DTable [map cell r]) R0) by (induction R0; cbn; congruence). rewrite E2.
    cbn [app]. rewrite !app_nil_r. reflexivity.
  - apply object_ordinary; auto.
  - intros n t I. apply in_app_or in I. destruct I as [I|[I|[]]]; [|discriminate]. unfold described_by in I. apply in_app_or in I. destruct I as [I|I].
    + cbn in I. repeat (destruct I as [I|I]; [first [discriminate|injection I as <- _; lia]|]). destruct I.
    + exfalso. apply in_app_or in I. destruct I as [I|I]; [|cbn in I; intuition discriminate]. destruct I as [I|[I|I]]; try discriminate. apply in_map_iff in I. destruct I as (r & I & _). discriminate.
Qed.

(** A title written by header is read as a title of its level. *)
Theorem C69_header : forall title level, tidy (chars title) -> ~ In "#"%char (chars title) -> 1 <= level <= 9 ->
  from_markdown (chars (header title level)) = Ok [DHeading (" "%char :: chars title) level; DPageBreak; DHeading (chars title) 0].
Proof.
  intros title level T H L. replace (chars (header title level)) with (markdown [Title level (chars title); Blank; Blank]).
  - rewrite DocxProps.C68_document; [reflexivity| |].
    + constructor; [|repeat constructor]. cbn. split; [lia|auto].
    + intros n t [E|[E|[E|[]]]]; try discriminate. injection E as <- _. lia.
  - unfold header. rewrite !chars_app. unfold markdown. cbn [map line_of AnnotationModel.join]. rewrite <- !app_assoc.
    replace (chars (repeat_string "#" level)) with (repeat "#"%char level); [reflexivity|]. clear. induction level; cbn; [reflexivity|]. rewrite IHlevel. reflexivity.
Qed.
End Documents.

(** ** Executions of workflows *)
Lemma value_of_set {A} (l : list (nat * A)) b x c : value_of (set_key l b x) c = if Nat.eqb b c then Some x else value_of l c.
Proof.
  induction l as [|[d y] l IH]; cbn [set_key value_of]; [reflexivity|]. destruct (Nat.eqb_spec d b) as [->|N]; cbn [value_of].
  - destruct (Nat.eqb_spec b c); reflexivity.
  - rewrite IH. destruct (Nat.eqb_spec d c) as [->|N']; [|reflexivity]. destruct (Nat.eqb_spec b c); [congruence|reflexivity].
Qed.
Lemma keys_set {A} (l : list (nat * A)) b x : map fst (set_key l b x) = map fst l ++ (if existsb (Nat.eqb b) (map fst l) then [] else [b]).
Proof.
  induction l as [|[d y] l IH]; cbn [set_key map fst existsb app]; [reflexivity|]. destruct (Nat.eqb_spec d b) as [->|N]; cbn [map fst].
  - rewrite Nat.eqb_refl. cbn [orb]. rewrite app_nil_r. reflexivity.
  - rewrite IH. destruct (Nat.eqb_spec b d); [congruence|]. reflexivity.
Qed.

Lemma dict_value l b m : last_value l b m -> value_of (dict_of l) b = Some m.
Proof.
  intros (l1 & l2 & -> & N). unfold dict_of. rewrite fold_left_app. cbn [fold_left fst snd]. set (d := fold_left _ l1 []). clearbody d.
  assert (H : value_of (set_key d b m) b = Some m) by (rewrite value_of_set, Nat.eqb_refl; reflexivity). revert H. generalize (set_key d b m). clear d.
  induction l2 as [|[c y] l2 IH]; intros d H; cbn [fold_left fst snd]; [auto|]. apply IH; [intros I; apply N; right; auto|].
  rewrite value_of_set. destruct (Nat.eqb_spec c b) as [->|]; [exfalso; apply N; left; auto|auto].
Qed.
Lemma dict_none (l : list (nat * Z)) b : ~ In b (map fst l) -> value_of (dict_of l) b = None.
Proof.
  intros N. unfold dict_of. assert (H : value_of (@nil (nat * Z)) b = None) by reflexivity. revert H. generalize (@nil (nat * Z)).
  induction l as [|[c y] l IH]; intros d H; cbn [fold_left fst snd]; [auto|]. apply IH; [intros I; apply N; right; auto|].
  rewrite value_of_set. destruct (Nat.eqb_spec c b) as [->|]; [exfalso; apply N; left; auto|auto].
Qed.
Lemma filter_all {A} (f : A -> bool) l : (forall x, In x l -> f x = true) -> filter f l = l.
Proof. induction l as [|x l IH]; intros H; [reflexivity|]. cbn. rewrite H by (left; auto). rewrite IH; auto. intros; apply H; right; auto. Qed.
Lemma dict_keys (l : list (nat * Z)) : map fst (dict_of l) = firsts (map fst l).
Proof.
  assert (G : forall d, map fst (fold_left (fun d p => set_key d (fst p) (snd p)) l d)
    = map fst d ++ filter (fun y => negb (existsb (Nat.eqb y) (map fst d))) (firsts (map fst l))).
  { induction l as [|[b x] l IH]; intros d; cbn [fold_left fst snd map firsts filter]; [rewrite app_nil_r; reflexivity|].
    rewrite IH, keys_set. rewrite <- app_assoc. f_equal. destruct (existsb (Nat.eqb b) (map fst d)) eqn:E; cbn [negb app].
    - rewrite app_nil_r. generalize (firsts (map fst l)). intros m. induction m as [|y m IHm]; [reflexivity|]. cbn [filter].
      destruct (Nat.eqb_spec b y) as [->|N]; cbn [negb filter]; [rewrite E; cbn [negb]; auto|]. destruct (negb _); [f_equal|]; auto.
    - f_equal. generalize (firsts (map fst l)). intros m. induction m as [|y m IHm]; [reflexivity|]. cbn [filter]. rewrite existsb_app. cbn [existsb].
      destruct (Nat.eqb_spec b y) as [->|N]; cbn [negb filter].
      + rewrite Nat.eqb_refl, orb_true_r. cbn [orb negb]. auto.
      + destruct (Nat.eqb_spec y b); [congruence|]. rewrite !orb_false_r. destruct (negb _); [f_equal|]; auto. }
  unfold dict_of. rewrite G. cbn [map app existsb negb]. apply filter_all. auto.
Qed.
Lemma firsts_in l b : In b (firsts l) <-> In b l.
Proof.
  induction l as [|x l IH]; [tauto|]. cbn [firsts]. split.
  - intros [->|H]; [left; auto|]. apply filter_In in H. right. apply IH, H.
  - intros [->|H]; [left; auto|]. destruct (Nat.eqb_spec x b) as [->|N]; [left; auto|]. right. apply filter_In. split; [apply IH; auto|].
    destruct (Nat.eqb_spec x b); [congruence|reflexivity].
Qed.
Lemma firsts_nodup l : NoDup (firsts l).
Proof.
  induction l as [|x l IH]; constructor; [|apply NoDup_filter; auto]. intros H. apply filter_In in H. destruct H as [_ H]. rewrite Nat.eqb_refl in H. discriminate.
Qed.
Lemma value_of_in {A} (l : list (nat * A)) b x : NoDup (map fst l) -> In (b, x) l -> value_of l b = Some x.
Proof.
  induction l as [|[c y] l IH]; intros N I; [destruct I|]. inversion N as [|? ? N1 N2]; subst. cbn [value_of]. destruct I as [E|I].
  - injection E as -> ->. rewrite Nat.eqb_refl. reflexivity.
  - destruct (Nat.eqb_spec c b) as [->|]; [exfalso; apply N1; apply in_map_iff; exists (b, x); auto|auto].
Qed.

Section Runs.
Variable set_order : list string -> list string.
Variable block_name : nat -> string.
Variable naturalsize : Z -> string.
Notation info_to_markdown := (info_to_markdown block_name naturalsize).
Notation state_to_markdown := (state_to_markdown block_name naturalsize).
Notation run_to_markdown := (run_to_markdown set_order block_name naturalsize).

(** The table of memory: a row for each block, where it was first evaluated, with what was last measured. *)
Definition memory_row (i : execution_info) (b : nat) (row : list string) : Prop :=
  exists start stop, last_value (before i) b start /\ last_value (after i) b stop /\
    row = [block_name b; naturalsize start; naturalsize stop; naturalsize (stop - start)].
Definition memory_titles : list string := ["Block"; "Memory usage at start"; "Memory usage at end"; "Memory diff"].
Definition filled (s : string) : string := if String.eqb s "" then "no value" else s.

Theorem C69_memory : forall i rows, Forall2 (memory_row i) (firsts (map fst (before i))) rows ->
  info_to_markdown i = Ok (table_text memory_titles (map (map filled) rows)).
Proof.
  intros i rows F. unfold DescribeModel.info_to_markdown.
  replace (mapM _ (dict_of (before i))) with (Ok rows : res (list (list string))).
  - cbn [bind]. rewrite table_is by (try discriminate; reflexivity). reflexivity.
  - rewrite <- dict_keys in F. assert (ND : NoDup (map fst (dict_of (before i)))) by (rewrite dict_keys; apply firsts_nodup).
    assert (V : forall b m, In (b, m) (dict_of (before i)) -> value_of (dict_of (before i)) b = Some m) by (intros; apply value_of_in; auto).
    revert V F. clear ND. generalize (dict_of (before i)) at 1 3 4. intros d V F. revert rows F.
    induction d as [|[b m] d IH]; intros rows F; cbn [map fst] in F; inversion F as [|? ? ? ? (start & stop & A & B & E) F']; subst; [reflexivity|].
    cbn [mapM fst snd]. rewrite (dict_value _ _ _ B). cbn [of_option bind]. assert (X := V b m (or_introl eq_refl)). rewrite (dict_value _ _ _ A) in X. injection X as ->.
    rewrite <- (IH ltac:(intros; apply V; right; auto) _ F'). reflexivity.
Qed.

(** A block that was started but did not end, as the one that raised: no table, KeyError. *)
Theorem C69_unfinished_refuted : forall i b, In b (map fst (before i)) -> ~ In b (map fst (after i)) -> info_to_markdown i = Err KeyError.
Proof.
  intros i b I N. unfold DescribeModel.info_to_markdown.
  assert (J : In b (map fst (dict_of (before i)))) by (rewrite dict_keys; apply firsts_in; auto).
  assert (M : forall d, In b (map fst d) -> mapM (fun bm : nat * Z => let* stop := of_option KeyError (value_of (dict_of (after i)) (fst bm)) in
     Ok [block_name (fst bm); naturalsize (snd bm); naturalsize stop; naturalsize (stop - snd bm)]) d = Err KeyError).
  { induction d as [|[c m] d IH]; intros K; [destruct K|]. cbn [mapM fst snd]. destruct K as [<-|K].
    - rewrite dict_none by auto. reflexivity.
    - destruct (value_of (dict_of (after i)) c); cbn [of_option bind]; [|reflexivity]. rewrite (IH K). reflexivity. }
  rewrite M by auto. reflexivity.
Qed.

(** The description of a state always raises: it gives its blocks to a method that takes keywords only. *)
Theorem C69_state_refuted : forall name progress workflow_name i, state_to_markdown name progress workflow_name i = Err TypeError.
Proof. reflexivity. Qed.

(** The description of a run. *)
Theorem C69_run : forall name workflow_name i memory, info_to_markdown i = Ok memory ->
  let text output := ("# WorkflowRun " ++ name ++ newline ++ newline ++ "Run of workflow " ++ workflow_name ++ newline ++ newline ++ "# Output" ++ newline ++ newline
    ++ output ++ newline ++ newline ++ "# Execution informations" ++ newline ++ newline ++ memory ++ newline ++ newline)%string in
  (forall n, run_to_markdown name workflow_name (Elements n) i = Ok (text ("Output is a sequence of " ++ nat_str n ++ " elements")%string)) /\
  (forall attributes table, object_table set_order attributes = Ok table -> run_to_markdown name workflow_name (Attributes attributes) i = Ok (text table)).
Proof.
  intros name workflow_name i memory M text.
  assert (G : forall out, substitute run_template [("name", name); ("workflow_name", workflow_name); ("output_table", out); ("execution_info", memory)] = Ok (text out)).
  { reflexivity. }
  split; intros.
  - unfold DescribeModel.run_to_markdown. cbn [bind]. unfold call_keywords_only. rewrite M. cbn [bind]. apply G.
  - unfold DescribeModel.run_to_markdown. rewrite H. cbn [bind]. unfold call_keywords_only. rewrite M. cbn [bind]. apply G.
Qed.

(** A run whose output is a number, a text or nothing has no description, nor one with a block that did not end. *)
Theorem C69_output_refuted : forall name workflow_name i,
  run_to_markdown name workflow_name Plain i = Err AttributeError /\
  (forall n b, In b (map fst (before i)) -> ~ In b (map fst (after i)) -> run_to_markdown name workflow_name (Elements n) i = Err KeyError).
Proof.
  intros. split; [reflexivity|]. intros n b I N. unfold DescribeModel.run_to_markdown. cbn [bind]. unfold call_keywords_only. rewrite (C69_unfinished_refuted i b) by auto. reflexivity.
Qed.
End Runs.

(** What is measured comes back from its dictionary, when blocks are numbered and found back by their numbers. *)
Theorem C69_info_dict : forall block_indices index_to_block i,
  (forall b, In b (map fst (before i)) \/ In b (map fst (after i)) ->
     exists k, value_of block_indices b = Some k /\ value_of index_to_block k = Some b) ->
  exists d, info_to_dict block_indices i = Ok d /\ info_of_dict index_to_block d = Ok i.
Proof.
  intros bi ib i H.
  assert (G : forall l : list (nat * Z), (forall b, In b (map fst l) -> exists k, value_of bi b = Some k /\ value_of ib k = Some b) ->
    exists m, numbered bi l = Ok m /\ numbered ib m = Ok l).
  { unfold numbered. induction l as [|[b x] l IH]; intros K; [exists []; auto|]. destruct IH as (m & E1 & E2); [intros; apply K; right; auto|].
    destruct (K b (or_introl eq_refl)) as (k & K1 & K2). exists ((k, x) :: m). cbn [mapM fst snd]. rewrite K1, K2. cbn [of_option bind]. rewrite E1, E2. auto. }
  destruct (G (before i)) as (b & B1 & B2); [auto|]. destruct (G (after i)) as (a & A1 & A2); [auto|].
  exists (start_time i, end_time i, b, a). unfold info_to_dict, info_of_dict. rewrite B1, A1. cbn [bind]. rewrite B2, A2. cbn [bind]. destruct i; auto.
Qed.
(** A block out of the numbering: KeyError. *)
Theorem C69_info_unknown : forall block_indices i b, In b (map fst (before i)) \/ In b (map fst (after i)) -> value_of block_indices b = None ->
  info_to_dict block_indices i = Err KeyError.
Proof.
  intros bi i b I N.
  assert (G : forall l : list (nat * Z), In b (map fst l) -> numbered bi l = Err KeyError).
  { unfold numbered. induction l as [|[c x] l IH]; intros K; [destruct K|]. cbn [mapM fst snd]. destruct K as [K|K]; [cbn in K; subst c|].
    - rewrite N. reflexivity.
    - destruct (value_of bi c); cbn [of_option bind]; [|reflexivity]. rewrite (IH K). reflexivity. }
  assert (X : forall l : list (nat * Z), (exists m, numbered bi l = Ok m) \/ numbered bi l = Err KeyError).
  { unfold numbered. induction l as [|[c x] l IH]; [left; exists []; reflexivity|]. cbn [mapM fst snd]. destruct (value_of bi c); cbn [of_option bind]; [|auto].
    destruct IH as [[m E]|E]; rewrite E; cbn [bind]; eauto. }
  unfold info_to_dict. destruct I as [I|I].
  - rewrite (G _ I). reflexivity.
  - destruct (X (before i)) as [[m E]|E]; rewrite E; cbn [bind]; [|reflexivity]. rewrite (G _ I). reflexivity.
Qed.
(** The time of an execution is what leads from its start to its end. *)
Theorem C69_time : forall i, (forall t, execution_time i = Some t <-> end_time i = Some (start_time i + t)%Z) /\ (execution_time i = None <-> end_time i = None).
Proof.
  intros i. unfold execution_time. destruct (end_time i) as [e|]; cbn [option_map]; split; try (split; congruence); intros t; split; intros E; try discriminate; injection E as E; f_equal; lia.
Qed.

(** ** Contents *)
Theorem C69_contents : forall headings,
  table_of_contents headings = String.concat "" (("## Table of Contents" ++ newline ++ newline) :: map (fun h => "- [" ++ h ++ "](#" ++ anchor h ++ ")" ++ newline) headings)%string.
Proof. intros h. unfold table_of_contents. rewrite TableProofs.fold_text. rewrite concat_nil. reflexivity. Qed.

Lemma map_map_string f g s : map_string f (map_string g s) = map_string (fun c => f (g c)) s.
Proof. induction s; cbn; congruence. Qed.
Lemma map_string_ext f g s : (forall c, f c = g c) -> map_string f s = map_string g s.
Proof. intros H. induction s; cbn; congruence. Qed.
Lemma map_string_chars f s : list_ascii_of_string (map_string f s) = map f (list_ascii_of_string s).
Proof. induction s; cbn; congruence. Qed.

(** Anchors are as long as their titles, in lower case, without spaces. *)
Theorem C69_anchor : forall h, String.length (anchor h) = String.length h /\
  forall c, In c (list_ascii_of_string (anchor h)) -> c <> " "%char /\ (nat_of_ascii c < 65 \/ 90 < nat_of_ascii c).
Proof.
  intros h. split; [unfold anchor; induction h; cbn in *; congruence|]. intros c I. unfold anchor in I. rewrite map_map_string, map_string_chars in I. apply in_map_iff in I.
  destruct I as (d & <- & _). clear. destruct d as [[] [] [] [] [] [] [] []]; vm_compute; (split; [discriminate|lia]).
Qed.
(** Titles that differ by their case, or by dashes instead of spaces, have the same anchor. *)
Theorem C69_anchor_refuted : forall h, anchor (map_string upper h) = anchor h /\ anchor (map_string (fun c => if Ascii.eqb c " " then "-"%char else c) h) = anchor h.
Proof.
  intros h. unfold anchor. rewrite !map_map_string. split; apply map_string_ext; intros [[] [] [] [] [] [] [] []]; reflexivity.
Qed.

(** ** Examples *)
Definition wheel : list (string * value) :=
  [("name", Text "Front"); ("radius", Number "float" "0.5"); ("spokes", Sequence "list" [Object "Spoke" None; Object "Spoke" (Some "b")]);
   ("tags", Dictionary [Text "a"; Number "int" "3"]); ("owner", Nothing); ("comment", Text "one that was mounted the wrong way")].
Example C69_example :
  to_docx (fun l => l) "Front" "Wheel" wheel = Ok (object_document "Front" "Wheel"
    [["name"; "str"; "Front"]; ["radius"; "float"; "0.5"]; ["spokes"; "list"; "2 Spokes"]; ["tags"; "dict"; "2 [str, int]"]; ["owner"; "NoneType"; " - "];
     ["comment"; "str"; "one that was mounted the wrong way"]]).
Proof. vm_compute. reflexivity. Qed.
Example C69_cut : cut "one that was mounted the wrong way" = "one that was mounted the ...". Proof. reflexivity. Qed.
Example C69_contents_example : table_of_contents ["My Part"] = ("## Table of Contents" ++ newline ++ newline ++ "- [My Part](#my-part)" ++ newline)%string.
Proof. reflexivity. Qed.
Example C69_memory_example : info_to_markdown (fun b => nat_str b) (fun m => nat_str (Z.to_nat m)) (Info 0 None [(1, 5%Z); (2, 6%Z); (1, 7%Z)] [(1, 6%Z); (1, 9%Z); (2, 8%Z)])
  = Ok (table_text memory_titles [["1"; "7"; "9"; "2"]; ["2"; "6"; "8"; "2"]]).
Proof. vm_compute. reflexivity. Qed.

Print Assumptions C69_value.
Print Assumptions C69_empty_dict_refuted.
Print Assumptions C69_order_refuted.
Print Assumptions C69_complex_refuted.
Print Assumptions C69_docx.
Print Assumptions C69_header.
Print Assumptions C69_memory.
Print Assumptions C69_unfinished_refuted.
Print Assumptions C69_state_refuted.
Print Assumptions C69_run.
Print Assumptions C69_output_refuted.
Print Assumptions C69_info_dict.
Print Assumptions C69_info_unknown.
Print Assumptions C69_time.
Print Assumptions C69_contents.
Print Assumptions C69_anchor.
Print Assumptions C69_anchor_refuted.

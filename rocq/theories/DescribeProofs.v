(** Proofs about the markdown of objects, states and runs. *)
From Coq Require Import Ascii String List Bool Arith ZArith Lia Permutation.
From Verif Require Import Base BaseProofs TableModel DescribeModel DescribeSpec.
From Verif Require AnnotationModel AnnotationProofs DocstringModel DocstringSpec DocstringProofs DocxModel DocxSpec DocxProofs DocxProps TableProofs.
Import ListNotations.
Local Open Scope string_scope.
Local Open Scope list_scope.
Local Open Scope nat_scope.

(** ** Values *)
Lemma remove_twice_in l c : In c (remove_twice l) <-> In c l.
Proof.
  induction l as [|x l IH]; [tauto|]. cbn [remove_twice]. split.
  - intros [->|H]; [left; auto|]. apply filter_In in H. right. apply IH, H.
  - intros [->|H]; [left; auto|]. destruct (String.eqb_spec x c) as [->|N]; [left; auto|]. right. apply filter_In. split; [apply IH; auto|].
    destruct (String.eqb_spec x c); [congruence|reflexivity].
Qed.
Lemma remove_twice_nodup l : NoDup (remove_twice l).
Proof.
  induction l as [|x l IH]; constructor.
  - intros H. apply filter_In in H. destruct H as [_ H]. rewrite String.eqb_refl in H. discriminate.
  - apply NoDup_filter. auto.
Qed.

Section Values.
Variable set_order : list string -> list string.
Hypothesis SO : forall l, Permutation l (set_order l).

Lemma sequence_counted cls items : items <> [] -> counted items (sequence_to_str set_order cls items).
Proof.
  intros N. unfold sequence_to_str. destruct items as [|v0 items0] eqn:Q; [congruence|]. rewrite <- Q in *. clear v0 items0 Q.
  set (names := set_order (remove_twice (map class_name items))).
  assert (P : Permutation (remove_twice (map class_name items)) names) by apply SO.
  assert (I : forall c, In c names <-> exists v, In v items /\ class_name v = c).
  { intros c. split.
    - intros H. apply (Permutation_in _ (Permutation_sym P)) in H. apply (proj1 (remove_twice_in _ _)) in H. apply in_map_iff in H. destruct H as (v & <- & H). eauto.
    - intros (v & H & <-). apply (Permutation_in _ P). apply (proj2 (remove_twice_in _ _)). apply in_map. auto. }
  assert (D : NoDup names) by (eapply Permutation_NoDup; [exact P|apply remove_twice_nodup]).
  clearbody names. destruct names as [|a [|b names]].
  - destruct items as [|v items]; [congruence|]. exfalso. apply (I (class_name v)). exists v. split; [left|]; auto.
  - assert (A : forall v, In v items -> class_name v = a).
    { intros v H. assert (K : In (class_name v) [a]) by (apply I; eauto). destruct K as [K|[]]. auto. }
    destruct (Nat.ltb_spec 1 (List.length items)) as [L|L].
    + apply One_class_plural; auto.
    + assert (E : List.length items = 1) by (destruct items as [|? [|? ?]]; [congruence|reflexivity|cbn in L; lia]).
      rewrite E. assert (X : forall s : string, (s ++ "")%string = s) by (induction s; cbn; congruence). rewrite X. apply (One_class items a A E).
  - apply (Classes items (a :: b :: names)); auto. cbn. lia.
Qed.

Lemma value_printed v : v <> Complex -> v <> Dictionary [] -> exists s, value_to_str set_order v = Ok s /\ printed v s.
Proof.
  destruct v as [c p| |s|c items|items| |c n]; intros N1 N2; try congruence; cbn [value_to_str]; eexists; (split; [reflexivity|]).
  - constructor.
  - unfold text_to_str. destruct (String.eqb_spec s "") as [->|]; constructor; auto.
  - destruct items; [constructor|]. constructor. apply sequence_counted. discriminate.
  - constructor. apply sequence_counted. congruence.
  - constructor.
  - unfold object_to_str. destruct n as [n|]; [|constructor; auto]. destruct (String.eqb_spec n "") as [->|]; constructor; auto.
Qed.
End Values.

(** ** Texts *)
Lemma concat_nil l : String.concat "" l = fold_right append "" l.
Proof. induction l as [|x [|y l] IH]; [reflexivity|cbn; rewrite TableProofs.sapp_nil; auto|]. cbn in *. rewrite IH. reflexivity. Qed.

Lemma text_text s : text_to_str (text_to_str s) = text_to_str s.
Proof. unfold text_to_str. destruct (String.eqb_spec s ""); [reflexivity|]. destruct (String.eqb_spec s ""); congruence. Qed.

Lemma string_cut s : string_in_table 25 s = cut s.
Proof.
  unfold string_in_table, cut. destruct (Nat.ltb_spec 25 (String.length s)), (Nat.leb_spec (String.length s) 25); try lia; [reflexivity|].
  rewrite TableProofs.substring_all, TableProofs.sapp_nil by lia. reflexivity.
Qed.

Lemma head_is titles : titles <> [] -> map capitalize titles = titles ->
  head_table titles = (row_text titles ++ row_text (map (fun _ => "------") titles))%string.
Proof.
  intros N C. unfold head_table, row_text. rewrite C.
  assert (A : forall l : list string, l <> [] -> ("| " ++ join " | " l ++ " |" = "|" ++ String.concat "" (map (fun c => " " ++ c ++ " |") l))%string).
  { induction l as [|x l IH]; [congruence|]. intros _. destruct l as [|y l].
    - reflexivity.
    - specialize (IH ltac:(discriminate)). rewrite concat_nil in *. unfold join in *. change (String.concat " | " (x :: y :: l)) with (x ++ " | " ++ String.concat " | " (y :: l))%string.
      set (z := String.concat " | " (y :: l)) in *. clearbody z. cbn [map fold_right] in *. set (m := fold_right append "" _) in *. clearbody m.
      rewrite !TableProofs.sapp_assoc in *. cbn [append] in *. injection IH as IH. rewrite IH. reflexivity. }
  assert (B : forall l : list string, (repeat_string "| ------ " (List.length l) ++ "|" = "|" ++ String.concat "" (map (fun c => " " ++ c ++ " |") (map (fun _ => "------") l)))%string).
  { induction l as [|x l IH]; [reflexivity|]. rewrite concat_nil in *. cbn [List.length repeat_string map fold_right]. rewrite TableProofs.sapp_assoc, IH. reflexivity. }
  pose proof (A titles N) as A1. pose proof (B titles) as B1.
  transitivity ((("| " ++ join " | " titles ++ " |") ++ newline) ++ (repeat_string "| ------ " (List.length titles) ++ "|") ++ newline)%string; [rewrite !TableProofs.sapp_assoc; reflexivity|].
  rewrite A1, B1, !TableProofs.sapp_assoc. reflexivity.
Qed.

Lemma table_is titles rows : titles <> [] -> map capitalize titles = titles ->
  matrix_table text_to_str 25 None rows titles = table_text titles (map (map text_to_str) rows).
Proof.
  intros N C. unfold matrix_table, table_text, join. rewrite !concat_nil. cbn [fold_right]. rewrite head_is by auto. rewrite !TableProofs.sapp_assoc. f_equal. f_equal.
  unfold content_table, table_rows_from_content. rewrite TableProofs.fold_text. rewrite TableProofs.sapp_nil. cbn [append]. unfold TableProofs.text. f_equal.
  rewrite map_map. apply map_ext. intros row. unfold row_text. rewrite concat_nil. rewrite TableProofs.line_text. unfold TableProofs.text. f_equal. f_equal. f_equal.
  rewrite !map_map. apply map_ext. intros s. unfold TableProofs.cell. rewrite string_cut. reflexivity.
Qed.

Lemma object_table_is set_order attributes texts :
  Forall2 (fun av s => value_to_str set_order (snd av) = Ok s) attributes texts ->
  object_table set_order attributes
  = Ok (table_text ["Attribute"; "Type"; "Value"] (map (fun avs => map text_to_str [fst (fst avs); class_name (snd (fst avs)); snd avs]) (combine attributes texts))).
Proof.
  intros F. unfold object_table, object_matrix.
  replace (mapM _ attributes) with (Ok (map (fun avs => [fst (fst avs); class_name (snd (fst avs)); snd avs]) (combine attributes texts)) : res (list (list string))).
  - cbn [bind]. rewrite table_is by (try discriminate; reflexivity). rewrite map_map. reflexivity.
  - induction F as [|av s l m H F IH]; [reflexivity|]. cbn [mapM combine map]. rewrite H. cbn [bind]. rewrite <- IH. reflexivity.
Qed.

(** ** Documents *)
Import AnnotationModel DocxModel DocxSpec.
Local Open Scope string_scope.
Local Open Scope list_scope.
Local Open Scope nat_scope.
Lemma chars_app s t : chars (s ++ t)%string = chars s ++ chars t.
Proof. unfold chars. induction s; cbn; congruence. Qed.
Lemma chars_concat l : chars (String.concat "" l) = List.concat (map chars l).
Proof. rewrite concat_nil. induction l as [|x l IH]; [reflexivity|]. cbn [fold_right map List.concat]. rewrite chars_app, IH. reflexivity. Qed.

Lemma markdown_lines bs : markdown (bs ++ [Blank]) = List.concat (map (fun b => line_of b ++ [AnnotationModel.newline]) bs).
Proof.
  unfold markdown. induction bs as [|b bs IH]; [reflexivity|]. cbn [app map List.concat]. rewrite <- IH.
  destruct (map line_of (bs ++ [Blank])) eqn:E; [destruct bs; discriminate|]. cbn [AnnotationModel.join]. rewrite <- app_assoc. reflexivity.
Qed.

Definition pad (s : string) : str := chars (" " ++ s ++ " ").
Lemma row_line cells : chars (row_text cells) = line_of (Row (map pad cells)) ++ [AnnotationModel.newline].
Proof.
  unfold row_text. rewrite !chars_app, chars_concat. cbn [line_of]. change (chars "|") with ["|"%char]. change (chars TableModel.newline) with [AnnotationModel.newline].
  cbn [app]. f_equal. f_equal. rewrite !map_map. f_equal. apply map_ext. intros c. unfold pad. rewrite !chars_app. rewrite <- !app_assoc. reflexivity.
Qed.
Lemma rule_line (titles : list string) : chars (row_text (map (fun _ => "------") titles)) = line_of (Rule (List.length titles)) ++ [AnnotationModel.newline].
Proof.
  rewrite row_line. f_equal. cbn [line_of]. rewrite map_map. induction titles as [|t l IH]; [reflexivity|]. cbn [map List.concat List.length repeat].
  rewrite <- !app_assoc. cbn [app]. rewrite IH. reflexivity.
Qed.
Lemma table_lines titles rows : chars (table_text titles rows)
  = List.concat (map (fun b => line_of b ++ [AnnotationModel.newline]) (Row (map pad titles) :: Rule (List.length titles) :: map (fun r => Row (map cell r)) rows)).
Proof.
  unfold table_text. rewrite chars_concat. cbn [map List.concat]. rewrite row_line, rule_line. f_equal. f_equal. f_equal. rewrite !map_map. apply map_ext. intros r.
  rewrite row_line, map_map. reflexivity.
Qed.

(** The lines of the description of an object. *)
Definition described_by (name cls : string) (rows : list (list string)) : list block :=
  [Title 1 (chars ("Object " ++ name ++ " of class " ++ cls)); Blank;
   Line (chars "This is a markdown file https://www.markdownguide.org/cheat-sheet/"); Blank;
   Line (chars "The good practice is to create a string python template and move the template to another python module");
   Line (chars "(like templates.py) to avoid mix python code and markdown, as python syntax conflicts with markdown"); Blank;
   Line (chars ("You can substitute values with object attributes like the name of the object: " ++ name)); Blank;
   Title 1 (chars "Attributes"); Blank;
   Line (chars ("Object " ++ name ++ " of class " ++ cls ++ " has the following attributes:")); Blank]
  ++ (Row (map pad ["Attribute"; "Type"; "Value"]) :: Rule 3 :: map (fun r => Row (map cell r)) rows) ++ [Blank; Blank].

Definition object_text (name cls table : string) : string :=
  String.concat ""
   ["# Object "; name; " of class "; cls;
   lines [""; ""; "This is a markdown file https://www.markdownguide.org/cheat-sheet/"; "";
             "The good practice is to create a string python template and move the template to another python module";
             "(like templates.py) to avoid mix python code and markdown, as python syntax conflicts with markdown"; ""];
   "You can substitute values with object attributes like the name of the object: "; name;
   lines [""; ""; "# Attributes"; ""];
   "Object "; name; " of class "; cls; lines [" has the following attributes:"; ""];
   table; lines [""; ""]].

Lemma object_lines name cls rows :
  chars (object_text name cls (table_text ["Attribute"; "Type"; "Value"] rows)) = markdown (described_by name cls rows ++ [Blank]).
Proof.
  rewrite markdown_lines. unfold described_by. rewrite !map_app, !concat_app. pose proof (table_lines ["Attribute"; "Type"; "Value"] rows) as K. cbn [List.length] in K. rewrite <- K. clear K.
  unfold object_text. rewrite chars_concat. cbn [map List.concat]. set (t := chars (table_text _ rows)). clearbody t.
  cbn [line_of repeat app]. rewrite !chars_app. set (n := chars name). set (c := chars cls). clearbody n c.
  repeat match goal with |- context [chars ?s] => let v := eval vm_compute in (chars s) in change (chars s) with v end.
  unfold AnnotationModel.newline. rewrite <- ?app_assoc. cbn [app]. rewrite <- ?app_assoc. cbn [app]. rewrite <- ?app_assoc. cbn [app]. rewrite <- ?app_assoc. cbn [app]. rewrite ?app_nil_r.
  reflexivity.
Qed.

Lemma to_markdown_is set_order name cls attributes texts :
  Forall2 (fun av s => value_to_str set_order (snd av) = Ok s) attributes texts ->
  to_markdown set_order name cls attributes
  = Ok (object_text name cls (table_text ["Attribute"; "Type"; "Value"] (map (fun avs => map text_to_str [fst (fst avs); class_name (snd (fst avs)); snd avs]) (combine attributes texts)))).
Proof. intros F. unfold to_markdown. rewrite (object_table_is _ _ texts) by auto. reflexivity. Qed.
